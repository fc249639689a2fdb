(* When the key for receiving changes. *)
From Coq Require Import List NArith ZArith Bool Lia ZifyBool ZifyNat ZifyN.
From Verif Require Import Base BaseProofs Aead Hkdf HalfConn SpecAead AeadProofs AeadRun AeadRunProofs AeadTotalProofs SpecTls HkdfProofs HalfProofs HalfRun HalfRunProofs Options HsHandler
  Crypter SpecHs HsProofs SpecRecord SpecRx CrypterProofs CrypterRun CrypterRunProofs SpecRxProofs CrypterLemmas CrypterLemmas2
  SpecFrame SpecKeyChange
  CrypterLemmas3 HsRun HsRunProofs CrypterChannel CrypterFinal.
Import ListNotations.
Local Open Scope N_scope.

(* ---- the handler: when a record is said to contain a KeyUpdate ---- *)
Lemma dead_key : forall fuel h o pt cu ct b r0 h' r, dead h -> tick_ok h o -> concat (hs_frags h) = b :: r0 -> b <> 24 ->
  process_loop fuel h pt cu ct = Done (h', inr r) -> r_key_update r = cu.
Proof.
  induction fuel as [|fuel IH]; intros h o pt cu ct b r0 h' r Hd Ht Eb Nb E.
  { destruct pt; [|discriminate]. cbn in E. injection E as _ <-. reflexivity. }
  destruct pt as [|z pt]; [cbn in E; injection E as _ <-; reflexivity|]. cbn [process_loop] in E.
  destruct (dead_step h o (z :: pt) Hd Ht) as
    [K|(rest & full & h1 & t & K & (r2 & r1 & E1 & E2) & Et & Hd1 & Ht1 & Hlt & Hc)]; [discriminate|rewrite K in E; discriminate|].
  rewrite K in E. cbn [obind] in E. rewrite Et in E. cbn [obind] in E. rewrite Eb in E1. injection E1 as <- _.
  unfold kKeyUpdateMessageType, kSessionTicketMessageType in E.
  destruct (N.eqb_spec b 24); [contradiction|]. destruct (N.eqb_spec b 4) as [E4|E4]; [|discriminate].
  destruct Hc as [[_ K4]| ->]; [contradiction|]. exact (IH _ _ _ _ _ _ _ _ _ Hd1 Ht1 E2 Nb E).
Qed.

Lemma brings_here : forall l, brings_update (24 :: l).
Proof. intros l. exists [], l. auto. Qed.

Lemma loop_key : forall fuel h o buf pt cu ct h' r, hs_inv h o buf -> bytes_ok pt ->
  process_loop fuel h pt cu ct = Done (h', inr r) -> r_key_update r = true ->
  cu = true \/ (pt <> [] /\ brings_update (buf ++ pt)).
Proof.
  induction fuel as [|fuel IH]; intros h o buf pt cu ct h' r Hinv Hb E Hk.
  { destruct pt; [|discriminate]. cbn in E. injection E as _ <-. left. exact Hk. }
  destruct pt as [|x pt0]; [cbn in E; injection E as _ <-; left; exact Hk|].
  cbn [process_loop] in E. remember (x :: pt0) as pt eqn:Ept.
  assert (Hne : pt <> []) by (rewrite Ept; discriminate).
  destruct (read_step_spec h o buf pt Hinv Hb Hne) as (taken & rest & Esplit & Htn & Hcases).
  assert (Hbrest : bytes_ok rest) by (rewrite Esplit in Hb; apply bytes_ok_app in Hb; tauto).
  assert (Eall : buf ++ pt = (buf ++ taken) ++ rest) by (rewrite Esplit, app_assoc; reflexivity).
  remember (buf ++ taken) as b1 eqn:Eb1.
  assert (Hb1 : b1 <> []) by (rewrite Eb1; apply app_ne_r; exact Htn).
  destruct b1 as [|y b1']; [contradiction|].
  assert (H24 : y = 24 -> cu = true \/ (pt <> [] /\ brings_update (buf ++ pt))).
  { intros ->. right. split; [exact Hne|]. rewrite Eall. apply brings_here. }
  destruct Hcases as [(h1 & Er & Hz & Z1 & Z2 & Z3 & Z4 & Z5) | [(h1 & Er & Hinv1) | (h1 & Er & Hmsg & Hfull & Htick)]];
    rewrite Er in E; cbn [obind] in E; [rewrite (type_of_frags h1 y b1' Z3 Z4) in E|
      rewrite (pos_type h1 y b1' (proj1 Hinv1)) in E|rewrite (full_type h1 y b1' Hfull) in E]; cbn [obind] in E;
    unfold kKeyUpdateMessageType, kSessionTicketMessageType in E;
    (destruct (N.eqb_spec y 24) as [E24|E24]; [exact (H24 E24)|]); destruct (N.eqb_spec y 4) as [E4|E4]; try discriminate.
  - left. rewrite <- Hk. symmetry. refine (dead_key _ _ _ _ _ _ _ _ _ _ _ Z5 Z4 E24 E).
    destruct Hz as (t & Ez). split; [lia|]. split; [rewrite Z1; discriminate|]. split; [exact Z3|]. right. split; [exact Z1|].
    rewrite Z4, Ez. cbn. lia.
  - destruct (IH _ _ _ _ _ _ _ _ Hinv1 Hbrest E Hk) as [K|[_ K]]; [left; exact K|]. right. split; [exact Hne|]. rewrite Eall. exact K.
  - assert (Hadd : exists h2, (if ignore_future_tickets h1 then Done h1 else add_ticket h1) = Done h2 /\
      exists o', hs_inv (with_frags h2 []) o' []).
    { destruct (ignore_future_tickets h1) eqn:Ei.
      - exists h1. split; [reflexivity|]. exists o. split; [eapply full_reset; eassumption|apply tick_ok_frags; exact Htick].
      - rewrite (tick_ignore _ _ Htick) in Ei. destruct o as [l|]; [|discriminate].
        destruct Htick as (ts & T1 & T2 & T3 & T4 & T5). unfold add_ticket. rewrite T1. eexists; split; [reflexivity|].
        exists (Some (l ++ [concat (hs_frags h1)])). destruct Hfull as (F1 & F2 & F3 & _). split.
        + apply PosHeader; cbn; auto; try lia. constructor.
        + exists (ts ++ [hs_frags h1]). cbn [with_frags hs_tickets hs_num hs_retrieved].
          split; [reflexivity|]. split; [rewrite <- T2; exact (map_app (@concat N) ts [hs_frags h1])|].
          rewrite T3, lenN_app, lenN_cons, lenN_nil.
          split; [apply wrap64_small; unfold two64; lia|]. split; [lia|exact T5]. }
    destruct Hadd as (h2 & Ea & o' & Hi2). rewrite Ea in E. cbn [obind] in E.
    destruct (IH _ _ _ _ _ _ _ _ Hi2 Hbrest E Hk) as [K|[_ (ms & rs & K1 & K2 & K3)]]; [left; exact K|].
    right. split; [exact Hne|]. exists ((y :: b1') :: ms), rs. rewrite Eall. cbn [app] in K1. rewrite K1.
    split; [cbn [concat]; rewrite <- app_assoc; reflexivity|]. split; constructor; auto. subst y. reflexivity.
Qed.

Lemma process_key : forall h o buf pt h' r, hs_inv h o buf -> bytes_ok pt ->
  process_handshake_message h pt = Done (h', inr r) -> r_key_update r = true -> pt <> [] /\ brings_update (buf ++ pt).
Proof.
  intros h o buf pt h' r Hi Hb E Hk. destruct (loop_key _ _ _ _ _ _ _ _ _ Hi Hb E Hk) as [K|K]; [discriminate|exact K].
Qed.

(* ---- one call ---- *)
Lemma from_peer_eq : forall P a x din, half_rel P (cx_in x) din ->
  used_inv P (ca_suite a) (ca_in_seq a) (ca_in_secret a) (cx_in x) din -> d_broken din = false -> din = from_peer P a x.
Proof.
  intros P a x din Wi (U1 & U2 & cnt & N1 & N2 & N3 & N4 & N5 & N6) Hbr. unfold from_peer.
  rewrite N1. unfold lenN at 1. rewrite map_length, seq_length. rewrite N2Nat.id.
  rewrite <- (N5 Hbr), <- (U2 Hbr), <- U1, <- Hbr. destruct din; reflexivity.
Qed.

Lemma wf_dec : forall hdr n, well_formed hdr n \/ ~ well_formed hdr n.
Proof.
  intros hdr n. unfold well_formed. destruct (list_eq_dec N.eq_dec hdr (tls_header n)) as [E|E]; [|right; intros [? _]; contradiction].
  destruct (N.le_gt_cases 17 n); [|right; lia]. destruct (N.le_gt_cases n (16384 + 17)); [left; auto|right; lia].
Qed.

(* What a handshake record does to the key. *)
Definition key_after (x x' : crypt) (res : code + hs_result) : Prop :=
  hc_epoch (cx_in x') = hc_epoch (cx_in x) \/
  (hc_epoch (cx_in x') = hc_epoch (cx_in x) + 1 /\ exists r, res = inr r /\ r_key_update r = true).

Lemma send_no_shift : forall x u, send_tickets x = Undef u -> u <> UbNegativeShift.
Proof.
  intros x u E. unfold send_tickets, get_stored_tickets, get_message_type in E.
  destruct (hs_retrieved (cx_handler x)); [discriminate|].
  destruct (hs_tickets (cx_handler x)) as [ts|]; destruct (expecting_more (cx_handler x)); cbn [obind] in E;
    try discriminate; try (injection E as <-; discriminate);
    (destruct (hs_frags (cx_handler x)) as [|[|b l] fr]; cbn [obind] in E; try (injection E as <-; discriminate);
     destruct (b =? kSessionTicketMessageType); cbn [obind] in E; try discriminate; injection E as <-; discriminate).
Qed.

Lemma result_no_shift : forall P lib x d r fs u, prims_ok P -> half_rel P (cx_in x) d ->
  handle_result P lib x r fs = Undef u -> u <> UbNegativeShift.
Proof.
  intros P lib x d [c|r] fs u HP R E; [discriminate|]. cbn [handle_result] in E.
  assert (Hs : forall (b : bool) y f, (if b then bind (lift (send_tickets y)) (fun x => ret (set_phase x DONE false, kOk)) else ret (y, kOk)) f
     = Undef u -> u <> UbNegativeShift).
  { intros b y f K. destruct b; [|discriminate]. unfold bind, lift in K. destruct (send_tickets y) as [z|v|] eqn:Ez; cbn [obind] in K; try discriminate.
    injection K as <-. exact (send_no_shift _ _ Ez). }
  assert (Ht : forall y (failed : bool) f, (if failed then ret (y, kInternal) else match cx_phase y with
     | DONE => ret (y, kOk)
     | p => let y := match p with NOT_RECEIVED => if r_ticket r then set_phase y RECEIVING (cx_expecting y) else y | _ => y end in
        if r_ticket r && (kMaxNumTicketsToProcess <=? r_num r) then bind (lift (send_tickets y)) (fun x => ret (set_phase x DONE false, kOk)) else ret (y, kOk) end) f
     = Undef u -> u <> UbNegativeShift).
  { intros y failed f K. destruct failed; [discriminate|]. destruct (cx_phase y); cbn zeta in K; [exact (Hs _ _ _ K)|exact (Hs _ _ _ K)|discriminate]. }
  unfold bind at 1 in E. destruct (r_key_update r).
  - destruct (half_update_spec P lib (cx_in x) d fs HP R) as (h' & st1 & fs1 & Eu & _).
    unfold bind at 1 in E. cbn [set_phase cx_in] in E. rewrite Eu in E. cbn [obind ret] in E. exact (Ht _ _ _ E).
  - cbn [ret obind] in E. exact (Ht (set_phase x (cx_phase x) (r_expecting r)) false fs E).
Qed.

Lemma result_key : forall P lib x d r fs, prims_ok P -> half_rel P (cx_in x) d -> cx_wk x ->
  match handle_result P lib x r fs with Done ((x', _), _) => key_after x x' r | Undef _ => False | NoFuel => False end.
Proof.
  intros P lib x d r fs HP R Hw. pose proof (handle_result_weak P lib x r fs d HP R Hw) as S0. unfold safeM in S0.
  destruct (handle_result P lib x r fs) as [[[x' st] fs']|u|] eqn:E; [|exact (result_no_shift _ _ _ _ _ _ _ HP R E S0)|exact S0]. clear S0. unfold key_after.
  destruct r as [c|r]; [cbn in E; injection E as <- _ _; left; reflexivity|].
  cbn [handle_result] in E. apply bind_inv in E. destruct E as ([x1 failed] & f1 & E1 & E).
  assert (Hend : hc_epoch (cx_in x1) = hc_epoch (cx_in x) \/ (hc_epoch (cx_in x1) = hc_epoch (cx_in x) + 1 /\ r_key_update r = true)).
  { destruct (r_key_update r).
    - apply bind_inv in E1. destruct E1 as ([h s1] & f2 & E1 & E2). apply ret_inv in E2. destruct E2 as [E2 _]. injection E2 as -> _.
      destruct (half_update_spec P lib (cx_in x) d fs HP R) as (h' & st1 & fs1 & Eu & _ & Ho & Hf & _).
      pose proof (eq_trans (eq_sym Eu) E1) as K. injection K as -> -> _.
      destruct (is_ok s1) eqn:Es; [apply is_ok_true in Es; right; split; [apply Ho; exact Es|reflexivity]|].
      apply is_ok_false in Es. left. apply Hf. exact Es.
    - apply ret_inv in E1. destruct E1 as [E1 _]. injection E1 as -> _. left. reflexivity. }
  assert (Hin : cx_in x' = cx_in x1).
  { clear Hend E1. destruct failed; [apply ret_inv in E; destruct E as [E _]; injection E as -> _; reflexivity|].
    set (x2 := match cx_phase x1 with NOT_RECEIVED => if r_ticket r then set_phase x1 RECEIVING (cx_expecting x1) else x1 | _ => x1 end) in *.
    assert (H2 : cx_in x2 = cx_in x1) by (subst x2; destruct (cx_phase x1); [destruct (r_ticket r)| |]; reflexivity).
    assert (Hs : forall y, (if r_ticket r && (kMaxNumTicketsToProcess <=? r_num r) then
        bind (lift (send_tickets x2)) (fun x => ret (set_phase x DONE false, kOk)) else ret (x2, kOk)) f1 = Done ((y, st), fs') ->
        cx_in y = cx_in x2).
    { intros y K. destruct (_ && _); [|apply ret_inv in K; destruct K as [K _]; injection K as -> _; reflexivity].
      apply bind_inv in K. destruct K as (x3 & f3 & K1 & K2). apply lift_inv in K1. destruct K1 as [K1 _].
      apply ret_inv in K2. destruct K2 as [K2 _]. injection K2 as -> _. cbn. clear - K1.
      unfold send_tickets in K1. destruct (get_stored_tickets (cx_handler x2)) as [[h [c|ts]]|u|]; cbn [obind] in K1; try discriminate.
      - injection K1 as <-. reflexivity.
      - destruct ts; injection K1 as <-; reflexivity. }
    rewrite <- H2. destruct (cx_phase x1); subst x2; cbn zeta in E; [apply Hs; exact E|apply Hs; exact E|].
    apply ret_inv in E. destruct E as [E _]. injection E as -> _. reflexivity. }
  rewrite Hin. destruct Hend as [K|[K Ku]]; [left; exact K|right; split; [exact K|eauto]].
Qed.

(* A handshake record with the content [content] is given. *)
Definition given (P : prims) (a : create_args) (x : crypt) (hdr : bytes) (payload : list iovec) (content : bytes) : Prop :=
  exists pad, hc_always_fail (cx_in x) = false /\ d_seq (from_peer P a x) < two64 /\
    hdr = tls_header (lenN (iov_concat payload)) /\
    iov_concat payload = dir_seal P (from_peer P a x) hdr (inner ty_handshake content pad).

Lemma unprotect_key : forall P lib a x dout hdr payload buf fs, prims_ok P -> cx_winv P a x dout ->
  cop_ok (CUnprotect hdr payload buf) ->
  match cstep P lib x (CUnprotect hdr payload buf) fs with
  | Done (x', _) => hc_epoch (cx_in x') = hc_epoch (cx_in x) \/
      (hc_epoch (cx_in x') = hc_epoch (cx_in x) + 1 /\ exists content h r, given P a x hdr payload content /\ bytes_ok content /\
         process_handshake_message (cx_handler x) content = Done (h, inr r) /\ r_key_update r = true)
  | Undef _ => exists content, given P a x hdr payload content
  | NoFuel => False
  end.
Proof.
  intros P lib a x dout hdr payload buf fs HP [_ _ (din & Wi & Wu) Ww _ _ _] (B1 & B2 & B3 & B4).
  destruct (crypt_unprotect_spec P lib x din hdr payload buf fs HP Wi B1 B2 B4) as (K1 & K2 & K3). cbn [cstep].
  destruct (cx_close x) eqn:Ec; [rewrite K1 by reflexivity; cbn [obind]; left; reflexivity|].
  destruct (wf_dec hdr (sum_lens payload)) as [Hwf|Hwf]; [|rewrite K2 by auto; cbn [obind]; left; reflexivity].
  destruct (K3 eq_refl Hwf) as (h' & fs1 & Hep & Hun & Hus & [[E' Hc]|(msg & buf' & Hu & E1 & E2 & E3 & E4 & E')]);
    rewrite E'; [cbn [obind]; left; exact Hep|]. clear K1 K2 K3 E' Hun.
  destruct (Hus Hu) as [R1 _]. clear Hus.
  pose proof (from_peer_eq P a x din Wi Wu (proj1 Hu)) as Ed. rewrite Ed in E1.
  assert (Hh : hdr = tls_header (lenN (iov_concat payload))) by (rewrite <- (sum_lens_concat payload B2); apply Hwf).
  assert (Hbm : bytes_ok msg) by (rewrite E1 in B3; eapply dir_seal_bytes; eauto).
  set (x1 := set_in x h') in *.
  assert (Hw1 : cx_wk x1) by (apply cx_wk_in; exact Ww).
  assert (Hep1 : hc_epoch (cx_in x1) = hc_epoch (cx_in x)) by exact Hep.
  unfold deliver. cbn [iov_data].
  assert (Et : takeN (lenN msg) buf' = msg) by (rewrite E3; apply takeN_app_exact). rewrite Et.
  destruct (scan_type (rev msg)) as [[ty content]|] eqn:Es; [|left; exact Hep1].
  apply scan_type_some in Es. destruct Es as (Hty & pad & Em).
  unfold kTls13Alert, kTls13Handshake, kTls13ApplicationData.
  destruct (N.eqb_spec ty 21) as [->|H21].
  { destruct content as [|? [|? ?]]; [left; exact Hep1|left; exact Hep1|]. unfold bind, lift. cbn [zero_out obind].
    destruct (_ =? kTlsAlertCloseNotify); left; exact Hep1. }
  destruct (N.eqb_spec ty 22) as [->|H22].
  { assert (Hg : given P a x hdr payload content) by (exists pad; split; [rewrite (hr_fail _ _ _ Wi); apply Hu|]; split; [rewrite <- Ed; apply Hu|]; split; [exact Hh|]; change (inner ty_handshake content pad) with (inner 22 content pad); rewrite <- Em; exact E1).
    assert (Hbc : bytes_ok content) by (rewrite Em in Hbm; unfold inner in Hbm; apply bytes_ok_app in Hbm; tauto).
    pose proof Hw1 as (o & Hhw & Hsw).
    pose proof (process_loop_weak _ _ o content false false (le_n _) Hhw) as Sp.
    fold (process_handshake_message (cx_handler x1) content) in Sp. change (cx_handler x1) with (cx_handler x) in *.
    unfold bind, lift. destruct (process_handshake_message (cx_handler x) content) as [[h2 r]|u|] eqn:Ep; cbn [obind];
      [|exists content; exact Hg|exact Sp].
    destruct Sp as (o2 & Hhw2 & Hk).
    assert (Hw2 : cx_wk (set_handler x1 h2)).
    { exists o2. split; [exact Hhw2|]. destruct o, o2; cbn in *; auto;
        destruct Hk as [k1 k2]; try (specialize (k1 eq_refl); discriminate); specialize (k2 eq_refl); discriminate. }
    pose proof (result_key P lib (set_handler x1 h2) (dir_next din) r fs1 HP R1 Hw2) as Hr.
    destruct (handle_result P lib (set_handler x1 h2) r fs1) as [[[x3 st] fs3]|u|]; cbn [obind]; [|destruct Hr|destruct Hr].
    assert (Hend : hc_epoch (cx_in x3) = hc_epoch (cx_in x) \/
      (hc_epoch (cx_in x3) = hc_epoch (cx_in x) + 1 /\ exists content h r, given P a x hdr payload content /\ bytes_ok content /\
         process_handshake_message (cx_handler x) content = Done (h, inr r) /\ r_key_update r = true)).
    { destruct Hr as [Hr|[Hr (r' & -> & Hku)]]; [left; cbn in Hr; congruence|]. right. split; [cbn in Hr; congruence|].
      exists content, h2, r'. auto. }
    destruct (negb (is_ok st)); cbn [obind ret]; exact Hend. }
  destruct (N.eqb_spec ty 23) as [->|H23].
  { destruct (cx_expecting x1); [left; exact Hep1|]. unfold bind, lift, ret.
    assert (Hs : exists x3, match cx_phase x1 with RECEIVING => obind (send_tickets x1) (fun x => Done (set_phase x DONE (cx_expecting x))) | _ => Done x1 end = Done x3 /\
      cx_in x3 = cx_in x1).
    { destruct (cx_phase x1); [eauto| |eauto]. pose proof (send_tickets_weak x1 Hw1) as S1.
      destruct (send_tickets x1) as [x3|u|] eqn:E5; [|destruct (send_no_shift _ _ E5 S1)|destruct S1].
      destruct S1 as (_ & _ & S1 & _). eexists. split; [reflexivity|exact S1]. }
    destruct Hs as (x3 & -> & Hin). cbn [obind]. left. rewrite Hin. exact Hep1. }
  unfold bind, lift. cbn [zero_out obind]. left; exact Hep1.
Qed.

(* The other calls never touch it. *)
Ltac done_ret E := apply ret_inv in E; destruct E as [E _]; injection E as -> _ _; reflexivity.
Lemma protect_key : forall P x t pt out fs x' st out' fs', crypt_protect P x t pt out fs = Done ((x', st, out'), fs') -> cx_in x' = cx_in x.
Proof.
  intros P x t pt out fs x' st out' fs' E. unfold crypt_protect in E. cbn zeta in E.
  destruct (_ <? _); [done_ret E|]. zeroed E. destruct (_ <? _); [done_ret E|]. zeroed E.
  destruct out as [buf|n]; [|done_ret E].
  apply bind_inv in E. destruct E as ([[h [s n]] tail] & fa & _ & E).
  destruct (negb _); [zeroed E; done_ret E|done_ret E].
Qed.

Lemma step_key : forall P lib a x dout op fs, prims_ok P -> cx_winv P a x dout -> cop_ok op ->
  match cstep P lib x op fs with
  | Done (x', _) => hc_epoch (cx_in x') = hc_epoch (cx_in x) \/
      (hc_epoch (cx_in x') = hc_epoch (cx_in x) + 1 /\ exists content, gives_handshake P a x op content)
  | Undef _ => exists content, gives_handshake P a x op content
  | NoFuel => False
  end.
Proof.
  intros P lib a x dout op fs HP W Hop.
  assert (Hg : forall hdr payload buf c, given P a x hdr payload c -> gives_handshake P a x (CUnprotect hdr payload buf) c).
  { intros hdr payload buf c (pad & A & B & C & D). exists hdr, payload, buf, pad. auto. }
  destruct op as [t pt buf|hdr payload buf|].
  - pose proof (cstep_weak P lib a x dout (CProtect t pt buf) fs HP W Hop) as S0. cbn [cstep] in *.
    destruct W as [Wo _ (din & Wi & _) _ _ _ _].
    destruct (crypt_protect_spec P x _ _ t pt buf fs HP Wi Wo Hop) as (h' & st & n & buf' & fs' & Ep & _).
    rewrite Ep. cbn [obind]. left. exact (f_equal hc_epoch (protect_key _ _ _ _ _ _ _ _ _ _ Ep)).
  - pose proof (unprotect_key P lib a x dout hdr payload buf fs HP W Hop) as K.
    destruct (cstep P lib x (CUnprotect hdr payload buf) fs) as [[x' r]|u|]; [|destruct K as (c & K); eauto|exact K].
    destruct K as [K|(K & c & _ & _ & G & _)]; [left; exact K|right; eauto].
  - cbn [cstep]. unfold crypt_update_outbound_key. destruct W as [Wo _ _ _ _ _ _].
    destruct (half_update_spec P lib (cx_out x) dout fs HP Wo) as (h' & st & fs' & E & _).
    rewrite (bind_done _ _ _ _ _ _ _ E). cbn [obind ret]. left. reflexivity.
Qed.

Lemma key_any : forall P lib a ops rs x op fs, connection P lib a ops rs x -> cop_ok op ->
  match cstep P lib x op fs with
  | Done (x', _) => hc_epoch (cx_in x') = hc_epoch (cx_in x) \/
      (hc_epoch (cx_in x') = hc_epoch (cx_in x) + 1 /\ exists content, gives_handshake P a x op content)
  | Undef _ => exists content, gives_handshake P a x op content
  | NoFuel => False
  end.
Proof.
  intros P lib a ops rs x op fs (HP & Hi & Ho & Hok & HC) Hop.
  destruct (creach_winv P lib a ops rs x HP Hi Ho Hok HC) as (W & _). exact (step_key P lib a x _ op fs HP W Hop).
Qed.

Lemma key_update_only : forall P lib a ops rs x r op fs x' res, connection P lib a ops rs x -> received P a ops rs r -> cop_ok op ->
  cstep P lib x op fs = Done (x', res) -> hc_epoch (cx_in x') <> hc_epoch (cx_in x) ->
  exists content, gives_handshake P a x op content /\ content <> [] /\ brings_update (r_part r ++ content).
Proof.
  intros P lib a ops rs x r op fs x' res HC HR Hop E Hne. pose proof HC as (HP & Hi & Ho & Hok & HC').
  destruct (creach_winv P lib a ops rs x HP Hi Ho Hok HC') as (W & _).
  pose proof (step_key P lib a x _ op fs HP W Hop) as K0. rewrite E in K0. destruct K0 as [K0|[_ (c0 & hdr & payload & buf & pad0 & -> & _)]]; [contradiction|].
  pose proof (unprotect_key P lib a x _ hdr payload buf fs HP W Hop) as K. rewrite E in K.
  destruct K as [K|(_ & c & h & r1 & (pad & G1 & G2 & G3 & G4) & Hb & Ep & Hk)]; [contradiction|].
  exists c. split; [exists hdr, payload, buf, pad; auto|].
  destruct (R_rel P lib a ops rs x HP Hi Ho Hok HC' r (proj1 HR) (proj2 HR)) as (dout & _ & Hinv & _).
  assert (Eb : d_broken (r_dir r) = false) by (rewrite <- (hr_fail _ _ _ (ci_in _ _ _ _ _ _ Hinv)); exact G1).
  destruct (ci_hs _ _ _ _ _ _ Hinv Eb) as (o & Hhs & _).
  exact (process_key _ _ _ _ _ _ Hhs Hb Ep Hk).
Qed.
