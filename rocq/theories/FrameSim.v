(* Proofs about FrameProt.v: every operation as a history of crypter calls; the
   round trip. *)
From Coq Require Import List NArith ZArith Bool Lia ZifyBool ZifyNat ZifyN.
From Verif Require Import Base BaseProofs Aead SpecAead AeadProofs Hkdf HalfConn
  SpecTls HkdfProofs HalfProofs Options HsHandler SpecHs HsProofs Crypter SpecRecord CrypterProofs
  SpecRx CrypterRun CrypterRunProofs SpecRxProofs CrypterLemmas CrypterLemmas2
  FrameProt SpecFrame FrameRun FrameProofs Calm FrameRx.
Import ListNotations.
Local Open Scope N_scope.
Ltac Zify.zify_post_hook ::= Z.div_mod_to_equations.

(* ---- Unprotect ---- *)
Lemma start_valid : forall input, Forall iov_valid input -> sum_lens input < two64 -> valid_cur (input, 0).
Proof.
  intros input Hv Hl. destruct (cur_start input) as (C1 & C2 & C3).
  split; [exact Hv|]. split; [exact C1|]. apply lens_ok_sum. exact Hl.
Qed.

Lemma unprotect_spec : forall P lib al a f input dout fs,
  prims_ok P -> alloc_ok al -> cx_winv P a (fp_crypt f) dout -> fop_ok (FUnprotect input) ->
  match fp_unprotect P lib al f input fs with
  | Done ((f', st, bufs), fs') =>
    (sum_lens input < 22 /\ f' = f /\ st = kFailedPrecondition /\ bufs = [] /\ fs' = fs) \/
    (22 <= sum_lens input /\
     exists ops rs opened e, rec_run P lib al (fp_crypt f) (fp_next f) (iov_concat input) ops rs opened e (fp_crypt f') /\
      cops_ok ops /\ (fs = [] -> no_faults ops /\ fs' = []) /\ loop_end f [] ops opened e f' st bufs)
  | Undef u => ~ Forall nonempty_iov input \/
      exists ops rs opened x', rec_run P lib al (fp_crypt f) (fp_next f) (iov_concat input) ops rs opened (EndUndef u) x' /\
        cops_ok ops /\ (fs = [] -> no_faults ops)
  | NoFuel => False
  end.
Proof.
  intros P lib al a f input dout fs HP HA W (Hv & Hb & Hs). unfold fp_unprotect.
  rewrite total_len_sum by lia. destruct (cw_in _ _ _ _ W) as (din & Ri & _).
  unfold bind at 1, lift at 1. rewrite (record_overhead_spec _ _ _ Ri).
  destruct (N.ltb_spec (sum_lens input) 22) as [H|H]; [left; auto|].
  destruct (cur_start input) as (C1 & C2 & C3).
  assert (Hsb : sum_lens input = lenN (cur_bytes (input, 0))) by (rewrite C3; apply sum_lens_concat; exact Hv).
  pose proof (unprotect_loop_spec (S (N.to_nat (sum_lens input / 22))) P lib al a f (input, 0) dout [] fs HP HA W
    (start_valid _ Hv ltac:(lia)) ltac:(rewrite C3; exact Hb) ltac:(lia) ltac:(lia)) as K.
  rewrite <- Hsb in K. rewrite C3 in K. cbn [fst] in K.
  destruct (unprotect_loop (S (N.to_nat (sum_lens input / 22))) P lib al f (input, 0) (sum_lens input) [] fs)
    as [[[[f' st] bufs] fs']|u|]; auto.
Qed.

Lemma unprotect_into_spec : forall P lib a f input buf dout fs,
  prims_ok P -> cx_winv P a (fp_crypt f) dout -> fop_ok (FUnprotectInto input buf) ->
  match fp_unprotect_into P lib f input (IoBuf buf) fs with
  | Done ((f', st, out, len), fs') =>
    (sum_lens input < 22 /\ f' = f /\ st = kFailedPrecondition /\ out = IoBuf buf /\ len = lenN buf) \/
    (22 <= sum_lens input /\ ~ starts_with_record (iov_concat input) /\
      f' = f /\ st = kFailedPrecondition /\ out = IoBuf buf /\ len = 0) \/
    (22 <= sum_lens input /\ exists hdr ps rest x' s n,
      iov_concat input = hdr ++ iov_concat ps ++ rest /\ is_record hdr (iov_concat ps) /\
      cop_ok (CUnprotect hdr ps buf) /\
      cstep P lib (fp_crypt f) (CUnprotect hdr ps buf) fs = Done (x', CUnprotected s n out) /\
      f' = with_crypt f x' /\ st = fp_code s /\ len = (match s with S_OK => n | _ => 0 end))
  | Undef u => ~ Forall nonempty_iov input \/ exists hdr ps rest,
      iov_concat input = hdr ++ iov_concat ps ++ rest /\ is_record hdr (iov_concat ps) /\
      cop_ok (CUnprotect hdr ps buf) /\
      cstep P lib (fp_crypt f) (CUnprotect hdr ps buf) fs = Undef u
  | NoFuel => False
  end.
Proof.
  intros P lib a f input buf dout fs HP W (Hv & Hb & Hs). unfold fp_unprotect_into.
  rewrite total_len_sum by lia. destruct (cw_in _ _ _ _ W) as (din & Ri & _).
  unfold bind at 1, lift at 1, number_bytes_to_unprotect. rewrite (record_overhead_spec _ _ _ Ri). cbn [obind].
  destruct (N.ltb_spec (sum_lens input) 22) as [H|H]; [left; auto|].
  unfold kTlsRecordHeaderSize. destruct (N.eqb_spec (sum_lens input - 5) 0) as [K|_]; [lia|].
  destruct (cur_start input) as (C1 & C2 & C3).
  destruct (rec_spec (input, 0) (start_valid _ Hv ltac:(lia)) ltac:(rewrite C3; exact Hb))
    as [u E Hn|Hn E|hdr vs on Hn E E2|hdr vs on ps c' E E2 Hsz Hr Hvp Hcb Hc' Hne];
    unfold bind at 1, lift at 1; rewrite E; try rewrite C3 in Hn; try rewrite C3 in Hcb.
  - left. exact Hn.
  - right; left. auto 10.
  - unfold bind at 1, lift at 1. rewrite E2. right; left. auto 10.
  - unfold bind at 1, lift at 1. rewrite E2.
    rewrite Hcb in Hb. destruct (bytes_ok_app _ _ Hb) as [Hb1 Hb2]. apply bytes_ok_app in Hb2. destruct Hb2 as [Hb3 Hb4].
    assert (Hop : cop_ok (CUnprotect hdr ps buf)).
    { cbn [cop_ok]. split; [exact Hb1|]. split; [exact Hvp|]. split; [exact Hb3|].
      rewrite (sum_lens_concat input Hv), Hcb, !lenN_app, <- (sum_lens_concat ps Hvp) in Hs. lia. }
    pose proof (cstep_weak P lib a (fp_crypt f) dout (CUnprotect hdr ps buf) fs HP W Hop) as Hw.
    assert (Hstep : cstep P lib (fp_crypt f) (CUnprotect hdr ps buf) fs =
      obind (crypt_unprotect P lib (fp_crypt f) (IoBuf hdr) ps (IoBuf buf) fs)
        (fun '((x, (st, n), out), _) => Done (x, CUnprotected st n out))) by reflexivity.
    unfold bind at 1.
    destruct (crypt_unprotect P lib (fp_crypt f) (IoBuf hdr) ps (IoBuf buf) fs) as [[[[x1 [s n]] out] fs1]|u|] eqn:Eu;
      cbn [obind] in Hstep.
    + destruct s; cbn [ret]; right; right; (split; [lia|]); eexists hdr, ps, (cur_bytes c'), x1, _, n;
        (split; [exact Hcb|]); (split; [exact Hr|]); (split; [exact Hop|]); (split; [exact Hstep|]); repeat split.
    + right. exists hdr, ps, (cur_bytes c'). auto.
    + rewrite Hstep in Hw. exact Hw.
Qed.

(* ---- every operation is a history of crypter calls ---- *)
Lemma crun_tx : forall P lib a ops x x' rs dout, prims_ok P -> cx_winv P a x dout -> cops_ok ops ->
  crun P lib x ops = Done (x', rs) -> exists dout', cx_winv P a x' dout'.
Proof.
  intros P lib a ops. induction ops as [|[op fs] ops IH]; intros x x' rs dout HP W Hok E.
  - cbn in E. inversion E; subst. eauto.
  - inversion Hok as [|? ? H1 H2]; subst. cbn [crun] in E. cbn [fst] in H1.
    pose proof (cstep_weak P lib a x dout op fs HP W H1) as K.
    destruct (cstep P lib x op fs) as [[x1 r]|u|]; cbn [obind safe] in *; try discriminate.
    destruct K as (W1 & _). destruct (crun P lib x1 ops) as [[x2 rs2]|u|] eqn:E2; cbn [obind] in E; try discriminate.
    inversion E; subst. eapply IH; eauto.
Qed.

Lemma fstep_sim : forall P lib al a f op fs f' r dout,
  prims_ok P -> alloc_ok al -> cx_winv P a (fp_crypt f) dout -> fop_ok op ->
  fstep P lib al f op fs = Done (f', r) ->
  exists ops rs, crun P lib (fp_crypt f) ops = Done (fp_crypt f', rs) /\ cops_ok ops /\ fp_max f' = fp_max f.
Proof.
  intros P lib al a f op fs f' r dout HP HA W Hop E.
  pose proof (cw_out _ _ _ _ W) as Ro. destruct (cw_in _ _ _ _ W) as (din & Ri & _).
  destruct op as [input|input id buf|input|input buf]; cbn [fstep] in E.
  - destruct (protect_spec P lib al f input fs din dout HP HA Ri Ro Hop)
      as (h' & st & bufs & fs' & ops & rs & k & A & B1 & B2 & _).
    cbn zeta in A. rewrite A in E. cbn [obind] in E. inversion E; subst. exists ops, rs. auto.
  - destruct (protect_into_spec P lib f input id buf fs din dout HP Ri Ro) as (h' & st & out' & fs' & ops & rs & k & A & B1 & B2 & _).
    { cbn in Hop. unfold protected_size in Hop. lia. }
    cbn zeta in A. rewrite A in E. cbn [obind] in E. inversion E; subst. exists ops, rs.
    split; [destruct (is_ok st); exact B1|]. split; [exact B2|]. destruct (is_ok st); reflexivity.
  - pose proof (unprotect_spec P lib al a f input dout fs HP HA W Hop) as K.
    destruct (fp_unprotect P lib al f input fs) as [[[[f1 st] bufs] fs']|u|]; cbn [obind] in E; try discriminate.
    inversion E; subst. destruct K as [(_ & -> & _)|(_ & ops & rs & opened & e & A & B & _ & C)].
    + exists [], []. split; [reflexivity|]. split; [constructor|reflexivity].
    + exists ops, rs. apply rec_run_crun in A. destruct C as (C1 & C2 & C3). destruct e; try contradiction; auto.
  - pose proof (unprotect_into_spec P lib a f input buf dout fs HP W Hop) as K.
    destruct (fp_unprotect_into P lib f input (IoBuf buf) fs) as [[[[[f1 st] out] n] fs']|u|]; cbn [obind] in E; try discriminate.
    inversion E; subst.
    destruct K as [(_ & -> & _)|[(_ & _ & -> & _)|(_ & hdr & ps & rest & x' & s & m & _ & _ & A & B & -> & _)]].
    + exists [], []. split; [reflexivity|]. split; [constructor|reflexivity].
    + exists [], []. split; [reflexivity|]. split; [constructor|reflexivity].
    + exists [(CUnprotect hdr ps buf, fs)], [CUnprotected s m out]. split; [cbn [crun]; rewrite B; reflexivity|].
      split; [constructor; [exact A|constructor]|reflexivity].
Qed.

(* The crypter's arguments. *)
Definition c_args (a : fp_args) : create_args :=
  let c := fa_crypt a in
  {| ca_tls := ca_tls c; ca_suite := ca_suite c; ca_connection_id := ca_connection_id c; ca_url := ca_url c;
     ca_identity := ca_identity c; ca_in_secret := ca_in_secret c; ca_out_secret := ca_out_secret c;
     ca_in_seq := ca_in_seq c; ca_out_seq := ca_out_seq c; ca_sender := true;
     ca_channel := ca_channel c; ca_logger := fa_logger a |}.

Lemma fp_create_inv : forall P lib a fs f fs', prims_ok P -> ca_in_seq (fa_crypt a) < two64 -> ca_out_seq (fa_crypt a) < two64 ->
  fp_create P lib a fs = Done (inr f, fs') ->
  fa_allocator a = true /\ fa_destroy a = true /\ fa_logger a = true /\
  exists x, crypt_create P lib (c_args a) fs = Done (inr x, fs') /\
    f = {| fp_crypt := x; fp_max := 16384 + 22; fp_next := 0; fp_events := [] |}.
Proof.
  intros P lib a fs f fs' HP Hi Ho E. unfold fp_create in E.
  destruct (fa_allocator a), (fa_destroy a), (fa_logger a) eqn:El; cbn [negb orb] in E; try discriminate.
  repeat split.
  match type of E with context [crypt_create P lib ?c] =>
    replace c with (c_args a) in E by (unfold c_args; rewrite El; reflexivity) end.
  destruct (crypt_create_spec P lib (c_args a) fs HP Hi Ho) as (r & fs1 & E1 & _ & H2 & _).
  unfold bind at 1 in E. rewrite E1 in E.
  destruct r as [st|x]; [discriminate|]. exists x.
  destruct (create_winv P lib (c_args a) fs fs1 x HP Hi Ho E1) as [W _].
  destruct (cw_in _ _ _ _ W) as (din & Ri & _).
  unfold bind, lift in E. rewrite (record_overhead_spec _ _ _ Ri) in E. cbn in E. inversion E; subst.
  split; [exact E1|reflexivity].
Qed.

Lemma frun_sim : forall P lib al a ops f f' rs dout,
  prims_ok P -> alloc_ok al -> cx_winv P a (fp_crypt f) dout -> fops_ok ops ->
  frun P lib al f ops = Done (f', rs) ->
  exists cops crs, crun P lib (fp_crypt f) cops = Done (fp_crypt f', crs) /\ cops_ok cops /\ fp_max f' = fp_max f.
Proof.
  intros P lib al a ops. induction ops as [|[op fs] ops IH]; intros f f' rs dout HP HA W Hok E.
  - cbn in E. inversion E; subst. exists [], []. split; [reflexivity|]. split; [constructor|reflexivity].
  - inversion Hok as [|? ? H1 H2]; subst. cbn [frun] in E. cbn [fst] in H1.
    destruct (fstep P lib al f op fs) as [[f1 r]|u|] eqn:E1; cbn [obind] in E; try discriminate.
    destruct (frun P lib al f1 ops) as [[f2 rs2]|u|] eqn:E2; cbn [obind] in E; try discriminate.
    inversion E; subst.
    destruct (fstep_sim P lib al a f op fs f1 r dout HP HA W H1 E1) as (o1 & r1 & A1 & A2 & A3).
    destruct (crun_tx P lib a o1 (fp_crypt f) (fp_crypt f1) r1 dout HP W A2 A1) as (d1 & W1).
    destruct (IH f1 f' rs2 d1 HP HA W1 H2 E2) as (o2 & r2 & B1 & B2 & B3).
    exists (o1 ++ o2), (r1 ++ r2). split; [rewrite (crun_app _ _ _ _ _ _ _ A1), B1; reflexivity|].
    split; [apply Forall_app; auto|congruence].
Qed.

Lemma protector_connection : forall P lib al a ops rs f, protector P lib al a ops rs f ->
  fa_allocator a = true /\ fa_destroy a = true /\ fa_logger a = true /\ fp_max f = 16384 + 22 /\
  exists cops crs, connection P lib (c_args a) cops crs (fp_crypt f).
Proof.
  intros P lib al a ops rs f (HP & HA & Hi & Ho & Hok & f0 & fs & fs' & Ec & Er).
  destruct (fp_create_inv P lib a fs f0 fs' HP Hi Ho Ec) as (L1 & L2 & L3 & x & Ex & ->).
  destruct (create_winv P lib (c_args a) fs fs' x HP Hi Ho Ex) as [W _].
  destruct (frun_sim P lib al (c_args a) ops
    {| fp_crypt := x; fp_max := 16384 + 22; fp_next := 0; fp_events := [] |} f rs _ HP HA W Hok Er) as (cops & crs & A & B & C).
  repeat (split; [assumption|]). exists cops, crs.
  split; [exact HP|]. split; [exact Hi|]. split; [exact Ho|]. split; [exact B|]. exists x, fs, fs'. auto.
Qed.

(* ---- round trip ---- *)
Lemma data_step : forall P lib x dout r content payload buf, prims_ok P -> rx_rel P x dout r ->
  let msg := inner ty_application_data content 0 in
  let hdr := tls_header (lenN msg + 16) in
  open_rx r -> r_part r = [] -> r_msgs r = [] -> bytes_ok content -> lenN content <= 16384 -> lenN content < lenN buf ->
  Forall iov_valid payload -> iov_concat payload = dir_seal P (r_dir r) hdr msg ->
  exists x' out, cstep P lib x (CUnprotect hdr payload buf) [] = Done (x', CUnprotected S_OK (lenN content) out) /\
    takeN (lenN content) (iov_data out) = content /\ rx_rel P x' dout (rx_dir r (dir_next (r_dir r))).
Proof.
  intros P lib x dout r content payload buf HP Hr msg hdr (Ho1 & Ho2) Hp Hnm Hb Hl Hbuf Hv Es.
  assert (Hm : lenN msg = lenN content + 1) by (unfold msg; rewrite lenN_inner; lia).
  assert (Hbm : bytes_ok msg).
  { unfold msg, inner. apply Forall_app. split; [exact Hb|]. constructor; [reflexivity|constructor]. }
  assert (Hpl : sum_lens payload = lenN msg + 16).
  { rewrite (sum_lens_concat payload Hv), Es. apply lenN_dir_seal. exact HP. }
  assert (B3 : bytes_ok (iov_concat payload)) by (rewrite Es; apply dir_seal_bytes_ok; assumption).
  assert (B4 : lenN hdr + sum_lens payload < two64) by (rewrite Hpl; unfold hdr; rewrite lenN_tls_header; unfold two64; lia).
  pose proof (recv_ok P lib x dout r hdr payload buf [] HP Hr (header_bytes_ok _) Hv B3 B4) as H.
  cbn [cstep].
  assert (Hw : well_formed hdr (lenN (iov_concat payload))).
  { rewrite <- (sum_lens_concat payload Hv), Hpl. split; [reflexivity|lia]. }
  assert (Hcon : forall (c : bytes) (pad : N), iov_concat payload = dir_seal P (r_dir r) hdr (inner ty_handshake c pad) -> False).
  { intros c pad E. rewrite Es in E. apply dir_seal_inj in E; [|exact HP]. apply inner_inj in E; [|discriminate|discriminate].
    destruct E; discriminate. }
  destruct (crypt_unprotect P lib x (IoBuf hdr) payload (IoBuf buf) []) as [[[[x' [st n]] out] fs']|u|].
  2: destruct H as (_ & _ & c & pad & E & _); exfalso; exact (Hcon c pad E).
  2: contradiction.
  cbn [obind]. destruct H as (r' & Hrecv & Hrel).
  inversion Hrecv; subst; try congruence; try contradiction.
  - match goal with Q : _ \/ _ |- _ => destruct Q as [Q|Q] end; [contradiction|].
    exfalso. match goal with Q : forall msg, _ = _ -> _ |- _ => specialize (Q msg Es) end. lia.
  - match goal with Q : iov_concat payload = dir_seal _ _ _ ?m |- _ =>
      rewrite Es in Q; apply dir_seal_inj in Q; [subst m|exact HP] end.
    match goal with Q : accept _ _ _ _ _ _ _ _ _ |- _ => rename Q into Ha end.
    unfold msg in Ha. inversion Ha; subst;
      try match goal with K : inner _ _ _ = zeros _ |- _ => exfalso; revert K; apply inner_not_zero; discriminate end;
      try match goal with K : inner _ _ _ = inner _ _ _ |- _ =>
        apply inner_inj in K; [|discriminate|first [discriminate|assumption]]; destruct K as (K1 & K2 & K3); try discriminate; subst end.
    + congruence.
    + exfalso. destruct (rx_rel_expecting _ _ _ _ Hr (proj1 Ho2)) as [He _].
      destruct Hr as (_ & _ & _ & _ & Hx). destruct (Hx (proj1 Ho2)) as [Ew _].
      match goal with K : r_wait _ = true |- _ => cbn [rx_dir r_wait] in K; rewrite K in Ew end. exact (He Ew Hp).
    + exists x', out. split; [reflexivity|].
      match goal with K : _ = iov_data out |- _ => rewrite <- K end.
      split; [unfold inner; rewrite <- !app_assoc; apply takeN_app_exact|].
      assert (Ed : rx_data (rx_dir r (dir_next (r_dir r))) = rx_dir r (dir_next (r_dir r))).
      { unfold rx_data, rx_dir. cbn [r_msgs r_done r_sent r_dir r_part r_closed r_bad r_wait].
        rewrite Hnm. cbn. rewrite andb_false_r, orb_false_r, app_nil_r. reflexivity. }
      rewrite Ed in Hrel. apply Hrel. cbn [rx_dir r_bad]. apply Hr.
Qed.

Lemma tls_header_inj : forall n m, n < 65536 -> m < 65536 -> tls_header n = tls_header m -> n = m.
Proof.
  intros n m Hn Hm E. rewrite !tls_header_shape in E. injection E as E1 E2. lia.
Qed.

Lemma app_split : forall A (a b c d : list A), lenN a = lenN c -> a ++ b = c ++ d -> a = c /\ b = d.
Proof.
  intros A a b c d L E. assert (a = c).
  { rewrite <- (takeN_app_exact _ a b), <- (takeN_app_exact _ c d), L, E. reflexivity. }
  subst. apply app_inv_head in E. auto.
Qed.

Lemma record_split : forall P d ty b hdr p rest rest', prims_ok P -> is_record hdr p -> lenN b <= 16384 ->
  hdr ++ p ++ rest = tls_record P d ty b 0 ++ rest' ->
  hdr = tls_header (lenN (inner ty b 0) + 16) /\ p = dir_seal P d (tls_header (lenN (inner ty b 0) + 16)) (inner ty b 0) /\
  rest = rest'.
Proof.
  intros P d ty b hdr p rest rest' HP (Eh & Hp) Hb E. unfold tls_record, tls_ciphertext in E. rewrite <- app_assoc in E.
  assert (L5 : lenN hdr = 5) by (rewrite Eh; apply lenN_tls_header).
  apply app_split in E; [|rewrite lenN_tls_header; exact L5]. destruct E as [E1 E2].
  assert (Lm : lenN (inner ty b 0) = lenN b + 1) by (rewrite lenN_inner; lia).
  assert (Lp : lenN p = lenN (inner ty b 0) + 16).
  { apply tls_header_inj; [exact Hp|lia|congruence]. }
  apply app_split in E2; [|rewrite lenN_dir_seal by exact HP; exact Lp]. destruct E2 as [E2 E3]. auto.
Qed.

Definition block_ok (b : bytes) : Prop := lenN b <= 16384 /\ bytes_ok b.

Lemma fb_bytes_eq : forall b, fb_bytes b = takeN (fb_len b) (iov_data (fb_mem b)).
Proof. reflexivity. Qed.

Lemma rec_run_records : forall P lib al bs x dout r id ops rs opened e x',
  prims_ok P -> alloc_ok al -> rx_rel P x dout r -> r_closed r = false -> d_broken (r_dir r) = false -> r_part r = [] -> r_msgs r = [] ->
  d_seq (r_dir r) + lenN bs <= two64 -> Forall block_ok bs ->
  rec_run P lib al x id (records P (r_dir r) bs) ops rs opened e x' -> cops_ok ops -> no_faults ops ->
  e = EndAll [] /\ map fb_bytes opened = bs /\ rx_rel P x' dout (rx_dir r (dir_adv (r_dir r) (lenN bs))).
Proof.
  intros P lib al bs. induction bs as [|b bs IH]; intros x dout r id ops rs opened e x' HP HA Hr Hcl Hbr Hp Hnm Hseq Hbs H Hok Hnf.
  - cbn [records] in H.
    assert (Hno : forall hdr ps (data : bytes), is_record hdr ps -> hdr ++ ps ++ data <> []).
    { intros hdr ps data (E & _) K. rewrite E, tls_header_shape in K. discriminate. }
    inversion H; subst; try (exfalso; eapply Hno; eauto; fail).
    + split; [reflexivity|]. split; [reflexivity|]. rewrite lenN_nil, dir_adv_0. destruct r; exact Hr.
    + match goal with K : 22 <= lenN [] |- _ => cbn in K; lia end.
  - cbn [records] in H. rewrite lenN_cons in Hseq. pose proof (Forall_inv Hbs) as (Hb1 & Hb2).
    pose proof (Forall_inv_tail Hbs) as Hbs'.
    assert (Hopen : open_rx r) by (split; [exact Hcl|]; split; [exact Hbr|lia]).
    pose proof (lenN_tls_record P (r_dir r) ty_application_data b 0 HP) as Lr.
    assert (Main : forall hdr ps data buf fs, is_record hdr (iov_concat ps) ->
       al id (lenN (iov_concat ps)) = IoBuf buf -> cop_ok (CUnprotect hdr ps buf) -> fs = [] ->
       hdr ++ iov_concat ps ++ data = tls_record P (r_dir r) ty_application_data b 0 ++ records P (dir_next (r_dir r)) bs ->
       data = records P (dir_next (r_dir r)) bs /\
       exists x1 out, cstep P lib x (CUnprotect hdr ps buf) fs = Done (x1, CUnprotected S_OK (lenN b) out) /\
         takeN (lenN b) (iov_data out) = b /\ rx_rel P x1 dout (rx_dir r (dir_next (r_dir r)))).
    { intros hdr ps data buf fs Hrec Hal (_ & Hv & _ & _) -> Ed.
      destruct (record_split P (r_dir r) _ b hdr (iov_concat ps) data _ HP Hrec Hb1 Ed) as (E1 & E2 & E3).
      split; [exact E3|]. subst hdr.
      destruct (HA id (lenN (iov_concat ps))) as (buf' & K1 & K2). rewrite Hal in K1. inversion K1; subst buf'.
      apply data_step; auto. rewrite K2, E2, lenN_dir_seal, lenN_inner by exact HP. lia. }
    remember (tls_record P (r_dir r) ty_application_data b 0 ++ records P (dir_next (r_dir r)) bs) as D eqn:ED.
    inversion H; subst.
    + exfalso. match goal with K : lenN _ < 22 |- _ => rewrite lenN_app, Lr in K; lia end.
    + exfalso. match goal with K : ~ starts_with_record _ |- _ => apply K end.
      eexists _, _, _. split; [unfold tls_record, tls_ciphertext; rewrite <- app_assoc; reflexivity|].
      split; [|rewrite lenN_dir_seal, lenN_inner by exact HP; lia].
      rewrite lenN_dir_seal by exact HP. reflexivity.
    + exfalso. pose proof (Forall_inv Hok) as Hop. pose proof (Forall_inv Hnf) as Hf. cbn [fst snd] in Hop, Hf.
      match goal with K : is_record ?h (iov_concat ?q), A : al _ _ = IoBuf ?bb, E : cstep _ _ _ (CUnprotect _ _ _) ?ff = _,
        D : _ ++ _ ++ _ = _ ++ _ |- _ => destruct (Main h q _ bb ff K A Hop Hf D) as (_ & x1 & out1 & E1 & _);
        rewrite E in E1; inversion E1; subst end. contradiction.
    + exfalso. pose proof (Forall_inv Hok) as Hop. pose proof (Forall_inv Hnf) as Hf. cbn [fst snd] in Hop, Hf.
      match goal with K : is_record ?h (iov_concat ?q), A : al _ _ = IoBuf ?bb, E : cstep _ _ _ (CUnprotect _ _ _) ?ff = _,
        D : _ ++ _ ++ _ = _ ++ _ |- _ => destruct (Main h q _ bb ff K A Hop Hf D) as (_ & x1 & out1 & E1 & _);
        rewrite E in E1; discriminate end.
    + pose proof (Forall_inv Hok) as Hop. pose proof (Forall_inv Hnf) as Hf. cbn [fst snd] in Hop, Hf.
      pose proof (Forall_inv_tail Hok) as Hok'. pose proof (Forall_inv_tail Hnf) as Hnf'.
      match goal with K : is_record ?h (iov_concat ?q), A : al _ _ = IoBuf ?bb, E : cstep _ _ _ (CUnprotect _ _ _) ?ff = _,
        D : _ ++ _ ++ _ = _ ++ _ |- _ => destruct (Main h q _ bb ff K A Hop Hf D) as (Ed & x2 & out1 & E1 & E2 & E3);
        rewrite E in E1; inversion E1; subst end.
      match goal with K : rec_run _ _ _ x2 _ _ _ _ _ _ _ |- _ => rename K into Hrun end.
      destruct (IH x2 dout (rx_dir r (dir_next (r_dir r))) _ _ _ _ _ _ HP HA E3 Hcl Hbr Hp Hnm
        ltac:(cbn [rx_dir r_dir dir_next d_seq]; lia) Hbs' Hrun Hok' Hnf') as (F1 & F2 & F3).
      cbn [rx_dir r_dir] in F3. split; [exact F1|]. split.
      * cbn [map]. rewrite F2. rewrite fb_bytes_eq. cbn [fb_len fb_mem]. rewrite E2. reflexivity.
      * rewrite lenN_cons, <- dir_adv_next. exact F3.
Qed.
