From Coq Require Import List NArith ZArith Bool Lia ZifyBool ZifyNat ZifyN.
From Verif Require Import Base BaseProofs Aead Hkdf HalfConn SpecAead AeadProofs SpecTls
  HkdfProofs HalfProofs HalfRun HalfRunProofs Options HsHandler Crypter SpecHs
  HsProofs SpecRecord CrypterProofs SpecRx CrypterRun CrypterRunProofs SpecRxProofs CrypterLemmas.
Import ListNotations.
Local Open Scope N_scope.

Lemma crun_app : forall P lib ops x x1 rs1 ops2, crun P lib x ops = Done (x1, rs1) ->
  crun P lib x (ops ++ ops2) = obind (crun P lib x1 ops2) (fun '(y, rs) => Done (y, rs1 ++ rs)).
Proof.
  intros P lib ops. induction ops as [|[op fs] ops IH]; intros x x1 rs1 ops2 E.
  - cbn in E. inversion E; subst. cbn [app]. destruct (crun P lib x1 ops2) as [[y rs]|u|]; reflexivity.
  - cbn [crun app] in *. destruct (cstep P lib x op fs) as [[y r]|u|]; cbn [obind] in *; try discriminate.
    destruct (crun P lib y ops) as [[z rs]|u|] eqn:E2; cbn [obind] in *; try discriminate.
    inversion E; subst. rewrite (IH _ _ _ ops2 E2).
    destruct (crun P lib x1 ops2) as [[w rs']|u|]; reflexivity.
Qed.

Lemma creach_snoc : forall P lib a ops rs x op fs x' res,
  creach P lib a ops rs x -> cstep P lib x op fs = Done (x', res) ->
  creach P lib a (ops ++ [(op, fs)]) (rs ++ [res]) x'.
Proof.
  intros P lib a ops rs x op fs x' res (x0 & f & f' & E1 & E2) E. exists x0, f, f'.
  split; [exact E1|]. rewrite (crun_app _ _ _ _ _ _ _ E2). cbn [crun]. rewrite E. reflexivity.
Qed.

Lemma fatal_malformed : forall s, fatal s -> malformed s.
Proof.
  intros s (ms & z & rest & E & M & T & Hz & Hk & _). eapply breaks_malformed; eauto. unfold breaks; tauto.
Qed.

Section L.
Variables (P : prims) (lib : ssl_lib) (a : create_args) (ops : list (cop * faults))
  (rs : list cres) (x : crypt).
Hypothesis HP : prims_ok P.
Hypothesis Hin : ca_in_seq a < two64.
Hypothesis Hout : ca_out_seq a < two64.
Hypothesis Hops : cops_ok ops.
Hypothesis Hreach : creach P lib a ops rs x.

(* C13, any history *)
Lemma C13_lemma : forall hdr payload buf fs x' st n out,
  cop_ok (CUnprotect hdr payload buf) ->
  cstep P lib x (CUnprotect hdr payload buf) fs = Done (x', CUnprotected st n out) ->
  st <> S_OK ->
  n = 0 /\
  (out = IoBuf buf \/ out = IoBuf (zeros (lenN buf)) \/
   exists k msg, iov_concat payload = dir_seal P k hdr msg /\
     out = IoBuf (msg ++ dropN (lenN msg) buf) /\
     (msg = zeros (lenN msg) \/
      (exists c pad, msg = inner ty_application_data c pad /\ st = S_INVALID_RECORD /\ cx_expecting x = true) \/
      (exists c pad, msg = inner ty_handshake c pad /\ st = S_INTERNAL_ERROR))).
Proof.
  intros hdr payload buf fs x' st n out Hok E Hne.
  split; [eapply C13_count_lemma; eauto|].
  destruct Hok as (B1 & B2 & B3 & B4).
  destruct (L_inv P lib a ops rs x HP Hin Hout Hops Hreach) as ([_ _ (din & Wi & _) _ _ _ _] & _ & _).
  destruct (crypt_unprotect_spec P lib x din hdr payload buf fs HP Wi B1 B2 B4) as (K1 & K2 & K3).
  cbn [cstep] in E.
  destruct (cx_close x) eqn:Ec; [rewrite K1 in E by reflexivity; cbn in E; inversion E; auto|].
  assert (Hwf : well_formed hdr (sum_lens payload) \/ ~ well_formed hdr (sum_lens payload)).
  { unfold well_formed. destruct (list_eq_dec N.eq_dec hdr (tls_header (sum_lens payload))) as [Eh|Eh];
      [|right; intros [? _]; contradiction].
    destruct (N.le_gt_cases 17 (sum_lens payload)); [|right; lia].
    destruct (N.le_gt_cases (sum_lens payload) (16384 + 17)); [left; auto|right; lia]. }
  destruct Hwf as [Hwf|Hwf].
  2:{ rewrite K2 in E by auto. cbn [obind] in E. inversion E; auto. }
  destruct (K3 eq_refl Hwf) as (h' & fs1 & Hep & Hun & Hus & [[E' Hc]|(msg & buf' & Hu & E1 & E2 & E3 & E4 & E')]);
    rewrite E' in E; [cbn in E; inversion E; auto|].
  assert (El : lenN buf' = lenN buf).
  { rewrite E3, lenN_app, lenN_dropN. lia. }
  unfold deliver in E. cbn [iov_data] in E.
  assert (Et : takeN (lenN msg) buf' = msg) by (rewrite E3; apply takeN_app_exact).
  rewrite Et in E.
  destruct (scan_type (rev msg)) as [[ty content]|] eqn:Es.
  2:{ apply scan_type_none in Es. right; right. exists din, msg. split; [exact E1|].
      inversion E; subst. split; [reflexivity|]. left; exact Es. }
  apply scan_type_some in Es. destruct Es as (Hty & pad & Em).
  unfold kTls13Alert, kTls13Handshake, kTls13ApplicationData in E.
  destruct (N.eqb_spec ty 21) as [->|H21].
  { right; left. destruct content as [|? [|? ?]]; unfold lift, bind in E; cbn [zero_out obind] in E;
      try (inversion E; subst; rewrite El; reflexivity).
    destruct (_ =? kTlsAlertCloseNotify) in E; inversion E; rewrite El; reflexivity. }
  destruct (N.eqb_spec ty 22) as [->|H22].
  { right; right. exists din, msg. split; [exact E1|].
    unfold lift, bind, ret in E.
    destruct (process_handshake_message _ content) as [[h1 r1]|u|]; [|discriminate..].
    destruct (handle_result _ _ _ r1 fs1) as [[[x1 st1] fs2]|u|]; [|discriminate..].
    destruct (negb (is_ok st1)); cbn in E; inversion E; subst; [|congruence].
    split; [reflexivity|]. right; right. eexists; eexists; split; [reflexivity|reflexivity]. }
  destruct (N.eqb_spec ty 23) as [->|H23].
  { right; right. exists din, msg. split; [exact E1|].
    destruct (cx_expecting (set_in x h')) eqn:Ex.
    - cbn in E. inversion E; subst. split; [reflexivity|]. right; left.
      eexists; eexists; split; [reflexivity|]. split; [reflexivity|exact Ex].
    - exfalso. unfold lift, bind, ret in E.
      destruct (match cx_phase (set_in x h') with RECEIVING => _ | _ => _ end) as [y|u|];
        cbn in E; inversion E; subst; congruence. }
  right; left. unfold lift, bind in E. cbn [zero_out obind] in E. inversion E. rewrite El. reflexivity.
Qed.

Variable r : rx.
Hypothesis Hrx : rx_run P (rx_start (d_in a)) ops rs r.
Hypothesis Hb : r_bad r = false.

(* C20 *)
Lemma C20_five_lemma : d_broken (r_dir r) = false -> (5 <= length (tickets_of (r_msgs r)))%nat ->
  cx_sent x <> [] \/ (6 <= length (tickets_of (r_msgs r ++ [r_part r])))%nat.
Proof.
  intros Hbr H5.
  destruct (R_rel P lib a ops rs x HP Hin Hout Hops Hreach r Hrx Hb) as (dout & _ & [_ _ _ _ _ _ Ch] & _).
  destruct (Ch Hbr) as (o & _ & Hp). unfold tickets_of in *.
  destruct (cx_phase x).
  - destruct Hp as (_ & Hf & _). exfalso. rewrite Hf in H5. cbn in H5. lia.
  - destruct Hp as (_ & Hf & _). exfalso. eapply Nat.lt_irrefl, Nat.lt_le_trans; [exact Hf|exact H5].
  - destruct Hp as (_ & [[_ Hs]|(_ & _ & _ & H6)]); [left; exact Hs|right; exact H6].
Qed.

Lemma unprotect_rx : forall hdr payload buf fs x' st n out r',
  cop_ok (CUnprotect hdr payload buf) ->
  cstep P lib x (CUnprotect hdr payload buf) fs = Done (x', CUnprotected st n out) ->
  rx_run P (rx_start (d_in a)) (ops ++ [(CUnprotect hdr payload buf, fs)])
    (rs ++ [CUnprotected st n out]) r' ->
  recv P (fs <> []) r hdr (iov_concat payload) buf st n (iov_data out) r' /\
  (r_bad r' = false -> exists dout, rx_rel P x' dout r' /\ send_step x x' (r_msgs r') (r_part r') /\
     (st = S_OK -> n <> 0 -> cx_phase x' <> RECEIVING)).
Proof.
  intros hdr payload buf fs x' st n out r' Hok E Hr'.
  pose proof (refine_lemma P lib a ops rs x HP Hin Hout Hops Hreach r Hrx Hb hdr payload buf fs Hok) as H.
  rewrite E in H. destruct H as (r1 & Hrv & K).
  assert (r' = r1) as ->; [|auto].
  eapply rx_run_det; [exact HP|exact Hr'|]. eapply rx_run_snoc; eauto.
Qed.

(* The call that completes the fifth ticket hands over the first five. *)
Lemma C20_fifth_lemma : forall hdr payload buf fs x' st n out r',
  cop_ok (CUnprotect hdr payload buf) ->
  cstep P lib x (CUnprotect hdr payload buf) fs = Done (x', CUnprotected st n out) ->
  rx_run P (rx_start (d_in a)) (ops ++ [(CUnprotect hdr payload buf, fs)])
    (rs ++ [CUnprotected st n out]) r' -> r_bad r' = false -> d_broken (r_dir r') = false ->
  (length (tickets_of (r_msgs r)) < 5 <= length (tickets_of (r_msgs r')))%nat ->
  is_ticket (r_part r') = false -> cx_sent x = [] ->
  exists s, cx_sent x' = [s] /\ ts_tickets s = firstn 5 (tickets_of (r_msgs r')).
Proof.
  intros hdr payload buf fs x' st n out r' Hok E Hr' Hb' Hbr' [H4 H5] Hp Hs.
  destruct (unprotect_rx _ _ _ _ _ _ _ _ _ Hok E Hr') as [Hrv K].
  destruct (K Hb') as (dout' & (_ & [_ _ _ _ _ _ Ch'] & _) & [S1 S2] & _).
  destruct (R_rel P lib a ops rs x HP Hin Hout Hops Hreach r Hrx Hb) as (dout & _ & [_ _ _ _ _ _ Ch] & _).
  assert (Hbr : d_broken (r_dir r) = false).
  { inversion Hrv; subst; auto.
    match goal with Q : dir_usable _ |- _ => destruct Q as [Q _]; exact Q end. }
  destruct (Ch Hbr) as (o & _ & Hph). destruct (Ch' Hbr') as (o' & _ & Hph').
  assert (Hd : cx_phase x <> DONE).
  { intro Ed. rewrite Ed in Hph. destruct Hph as (_ & [[_ Q]|(_ & _ & Q & _)]); [contradiction|].
    eapply Nat.lt_irrefl, Nat.lt_le_trans; [exact H4|exact Q]. }
  assert (Hd' : cx_phase x' = DONE).
  { destruct (cx_phase x'); [| |reflexivity]; exfalso.
    - destruct Hph' as (_ & Hf & _). unfold tickets_of in H5. rewrite Hf in H5. cbn in H5. lia.
    - destruct Hph' as (_ & Hf & _). eapply Nat.lt_irrefl, Nat.lt_le_trans; [exact Hf|exact H5]. }
  specialize (S2 Hd Hd' Hp).
  destruct S1 as [S1|(_ & ch & S1)]; [congruence|]. eexists. split; [exact S1|reflexivity].
Qed.

(* Application data after at least one ticket hands over all tickets so far. *)
Lemma C20_data_lemma : forall hdr payload buf fs x' n out r',
  cop_ok (CUnprotect hdr payload buf) ->
  cstep P lib x (CUnprotect hdr payload buf) fs = Done (x', CUnprotected S_OK n out) -> n <> 0 ->
  rx_run P (rx_start (d_in a)) (ops ++ [(CUnprotect hdr payload buf, fs)])
    (rs ++ [CUnprotected S_OK n out]) r' ->
  (1 <= length (tickets_of (r_msgs r)) < 5)%nat ->
  exists s, cx_sent x' = [s] /\ (cx_sent x = [] -> ts_tickets s = tickets_of (r_msgs r)).
Proof.
  intros hdr payload buf fs x' n out r' Hok E Hn Hr' [H1 H4].
  destruct (unprotect_rx _ _ _ _ _ _ _ _ _ Hok E Hr') as [Hrv K].
  assert (Hb' : r_bad r' = false /\ d_broken (r_dir r') = false /\ r_msgs r' = r_msgs r).
  { inversion Hrv; subst; try (match goal with Q : context [if ?b then _ else _] |- _ => destruct b; discriminate end).
    match goal with Q : accept _ _ _ _ _ _ _ _ _ |- _ => inversion Q; subst; try congruence end.
    split; [exact Hb|]. split; [|reflexivity].
    match goal with Q : dir_usable _ |- _ => destruct Q as [Q _]; exact Q end. }
  destruct Hb' as (Hb' & Hbr' & Em).
  destruct (K Hb') as (dout' & (_ & [_ _ _ _ _ Cs' Ch'] & _) & [S1 S2] & Hph).
  specialize (Hph eq_refl Hn). rewrite Em in *.
  destruct (Ch' Hbr') as (o' & _ & Hp').
  assert (Hne : cx_sent x' <> []).
  { destruct (cx_phase x').
    - destruct Hp' as (_ & Hf & _). exfalso. unfold tickets_of in H1. rewrite Hf in H1. cbn in H1. lia.
    - congruence.
    - destruct Hp' as (_ & [[_ Q]|(_ & _ & Q & _)]); [exact Q|].
      exfalso. eapply Nat.lt_irrefl, Nat.lt_le_trans; [exact H4|exact Q]. }
  destruct Cs' as [Q|(m0 & m1 & ch & _ & _ & Q)]; [contradiction|].
  eexists. split; [exact Q|]. intros E0.
  destruct S1 as [S1|(_ & ch' & S1)]; [congruence|].
  assert (S3 := f_equal (fun l => match l with s :: _ => ts_tickets s | [] => [] end) (eq_trans (eq_sym Q) S1)).
  cbn [the_send ts_tickets] in S3 |- *. rewrite S3.
  apply firstn_all2. unfold tickets_of in H4. apply Nat.lt_le_incl, H4.
Qed.

(* A handshake record of a well-formed stream, all library calls working *)
Lemma hs_lemma : forall content pad payload buf ms part,
  let msg := inner ty_handshake content pad in
  let hdr := tls_header (lenN msg + 16) in
  r_closed r = false -> dir_usable (r_dir r) -> bytes_ok content ->
  lenN content + pad <= 16384 -> lenN msg <= lenN buf ->
  Forall iov_valid payload -> iov_concat payload = dir_seal P (r_dir r) hdr msg ->
  r_part r ++ content = concat ms ++ part -> Forall hs_msg ms -> Forall known ms ->
  hs_partial part -> (part <> [] -> known part) -> key_update_last ms part ->
  let r' := rx_read (rx_dir r (dir_next (r_dir r)))
      (if has_key_update content ms part then dir_update P (dir_next (r_dir r)) else dir_next (r_dir r))
      ms part in
  exists x' out,
    cop_ok (CUnprotect hdr payload buf) /\
    cstep P lib x (CUnprotect hdr payload buf) [] = Done (x', CUnprotected S_OK 0 out) /\
    rx_run P (rx_start (d_in a)) (ops ++ [(CUnprotect hdr payload buf, [])])
      (rs ++ [CUnprotected S_OK 0 out]) r'.
Proof.
  intros content pad payload buf ms part msg hdr Hcl Hu Hbc Hlen Hbuf Hv Es Est Hms Hk Hp Hkp Hkl r'.
  assert (Hm : lenN msg = lenN content + 1 + pad) by apply lenN_inner.
  destruct (deliver_lemma P lib a ops rs x HP Hin Hout Hops Hreach r Hrx Hb msg payload buf Hcl Hu) as [Hok H]; auto; try lia.
  { unfold msg, inner. apply bytes_ok_app. split; [exact Hbc|]. constructor; [reflexivity|].
    apply Forall_forall. intros y Hy. apply repeat_spec in Hy. subst y. reflexivity. }
  fold hdr in H, Hok.
  assert (T : ty_alert <> 0 /\ ty_handshake <> 0 /\ ty_application_data <> 0) by (repeat split; discriminate).
  destruct T as (T1 & T2 & T3).
  assert (Hnm : ~ malformed (r_part r ++ content)) by (rewrite Est; apply not_malformed; auto).
  destruct (cstep P lib x (CUnprotect hdr payload buf) []) as [[x' [?|st n out|?]]|u|]; try contradiction.
  - destruct H as (r1 & Ha & Hrv & _). exists x', out. split; [exact Hok|].
    assert (E : st = S_OK /\ n = 0 /\ r1 = r').
    { unfold msg in Ha.
      inversion Ha as [Ez|? ? ? Em|? ? ? ? Em|? ? Em|? ? ? Em|? ? Em|? ? Em ?|c p ms1 part1 Em E1 M1 M2 M3 M4 M5|? ? ? ? ? Hf|? ? ? ? ? Em Hd ? ? Hbr|? ? ? ? ? ? Em Hd ? ? Hz Hkz];
        try (apply inner_inj in Em; [|assumption|assumption]; destruct Em as (K1 & K2 & K3); try discriminate; subst).
      - exfalso; revert Ez; apply inner_not_zero; discriminate.
      - congruence.
      - cbn [rx_dir r_part] in E1. rewrite Est in E1. apply parse_unique in E1; auto.
        destruct E1 as [-> ->]. auto.
      - contradiction.
      - exfalso. apply Hnm. eapply breaks_malformed; [exact Hd|assumption..|]. unfold breaks; tauto.
      - exfalso. apply Hnm. eapply breaks_malformed; [exact Hd|assumption..|]. unfold breaks; tauto. }
    destruct E as (-> & -> & ->). split; [reflexivity|]. eapply rx_run_snoc; eauto.
  - destruct H as (_ & c & p & E & Hmal). exfalso. apply inner_inj in E; [|assumption|assumption].
    destruct E as (_ & <- & _). apply Hnm, fatal_malformed. exact Hmal.
Qed.

(* C22 *)
Lemma C22_lemma : forall op fs, cop_ok op ->
  (forall y, cstep P lib x op fs <> Done y) ->
  r_closed r = false /\ exists hdr payload buf c pad, op = CUnprotect hdr payload buf /\
    iov_concat payload = dir_seal P (r_dir r) hdr (inner ty_handshake c pad) /\
    fatal (r_part r ++ c).
Proof.
  intros op fs Hok Hno. destruct op as [t pt buf|hdr payload buf|].
  - exfalso. destruct (protect_lemma P lib a ops rs x HP Hin Hout Hops Hreach t pt buf fs Hok)
      as (? & ? & ? & ? & E & _). eapply Hno; exact E.
  - pose proof (refine_lemma P lib a ops rs x HP Hin Hout Hops Hreach r Hrx Hb hdr payload buf fs Hok) as H.
    destruct (cstep P lib x (CUnprotect hdr payload buf) fs) as [y|u|];
      [exfalso; eapply Hno; reflexivity| |contradiction]; destruct H as (_ & Hc & c & p & E & Hm);
      (split; [exact Hc|]; do 5 eexists; split; [reflexivity|]; split; [exact E|exact Hm]).
  - exfalso. destruct (L_inv P lib a ops rs x HP Hin Hout Hops Hreach) as ([Wo _ _ _ _ _ _] & _ & _).
    destruct (half_update_spec P lib (cx_out x) _ fs HP Wo) as (h' & st & fs' & Eu & _).
    eapply Hno. cbn [cstep]. unfold crypt_update_outbound_key, bind. rewrite Eu. reflexivity.
Qed.

Lemma C22_exact_lemma : forall content pad payload buf,
  let msg := inner ty_handshake content pad in
  let hdr := tls_header (lenN msg + 16) in
  r_closed r = false -> dir_usable (r_dir r) -> bytes_ok content -> lenN content + pad <= 16384 ->
  lenN msg <= lenN buf -> Forall iov_valid payload -> iov_concat payload = dir_seal P (r_dir r) hdr msg ->
  (cstep P lib x (CUnprotect hdr payload buf) [] = Undef UbNegativeShift <-> fatal (r_part r ++ content)).
Proof.
  intros content pad payload buf msg hdr Hcl Hu Hbc Hlen Hbuf Hv Es.
  assert (Hm : lenN msg = lenN content + 1 + pad) by apply lenN_inner.
  destruct (deliver_lemma P lib a ops rs x HP Hin Hout Hops Hreach r Hrx Hb msg payload buf Hcl Hu) as [Hok H]; auto; try lia.
  { unfold msg, inner. apply bytes_ok_app. split; [exact Hbc|]. constructor; [reflexivity|].
    apply Forall_forall. intros y Hy. apply repeat_spec in Hy. subst y. reflexivity. }
  fold hdr in H, Hok.
  assert (T : ty_alert <> 0 /\ ty_handshake <> 0 /\ ty_application_data <> 0) by (repeat split; discriminate).
  destruct T as (T1 & T2 & T3).
  destruct (cstep P lib x (CUnprotect hdr payload buf) []) as [[x' [?|st n out|?]]|u|]; try contradiction.
  - split; [discriminate|]. intros (ms & z & rest & E & M & Tk & Hz & Hk & L). exfalso.
    assert (Hbz : breaks z rest) by (unfold breaks; tauto).
    assert (Hmal : malformed (r_part r ++ content)) by (eapply breaks_malformed; eauto).
    destruct H as (r1 & Ha & _). unfold msg in Ha.
    inversion Ha as [Ez|? ? ? Em|? ? ? ? Em|? ? Em|? ? ? Em|? ? Em|? ? Em ?|c p ms1 part1 Em E1 M1 M2 M3 M4 M5|? ? ? ? ? Hf|? ? ms2 m2 rest2 Em E2 ? ? Hbr|? ? ms2 z2 rest2 ? Em E2 ? ? Hz2 Hk2 L2];
      try (apply inner_inj in Em; [|assumption|assumption]; destruct Em as (K1 & K2 & K3); try discriminate; subst);
      cbn [rx_dir r_part] in *.
    + revert Ez; apply inner_not_zero; discriminate.
    + congruence.
    + rewrite E1 in Hmal. revert Hmal. apply not_malformed; auto.
    + contradiction.
    + assert (Eb : concat ms ++ z ++ rest = concat ms2 ++ m2 ++ rest2) by congruence.
      assert (Hbb : breaks m2 rest2) by (unfold breaks; tauto).
      assert (ms = ms2) by (eapply breaks_unique; eauto). subst ms2.
      apply app_inv_head in Eb. destruct Hbr as [[Hne Hun]|(Hmm & _)].
      * apply Hun. apply (known_app m2 rest2 Hne). rewrite <- Eb. apply known_ext; [destruct Hz as (t & ->); discriminate|exact Hk].
      * eapply msg_not_zero; eauto.
    + assert (Eb : concat ms ++ z ++ rest = concat ms2 ++ z2 ++ rest2) by congruence.
      assert (Hbb : breaks z2 rest2) by (unfold breaks; tauto).
      assert (ms = ms2) by (eapply breaks_unique; eauto). subst ms2.
      apply app_inv_head in Eb. destruct Hz as (t & ->), Hz2 as (t2 & ->). cbn in Eb. inversion Eb; subst. lia.
  - split; [|intros _; destruct H as (-> & _); reflexivity].
    intros _. destruct H as (_ & c & p & E & Hf). apply inner_inj in E; [|assumption|assumption].
    destruct E as (_ & <- & _). exact Hf.
Qed.
End L.
