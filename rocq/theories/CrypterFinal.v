(* The lemmas about the record protocol in the form used by PropRecord.v. *)
From Coq Require Import List NArith ZArith Bool Lia ZifyBool ZifyNat ZifyN.
From Verif Require Import Base BaseProofs Aead Hkdf HalfConn SpecAead SpecTls HalfRun Options HsHandler
  Crypter SpecHs HsProofs SpecRecord SpecRx CrypterRun CrypterRunProofs SpecRxProofs CrypterLemmas CrypterLemmas2
  CrypterLemmas3 HsRun HsRunProofs.
Import ListNotations.
Local Open Scope N_scope.

Lemma hs_partial_nil : hs_partial [].
Proof.
  exists [4; 0; 0; 1; 0]. split; [discriminate|]. exists 4, 0, 0, 1, [0].
  split; [reflexivity|]. split; [|split; [reflexivity|discriminate]].
  repeat constructor.
Qed.

Lemma accept_part : forall P f r msg out st n out' r', accept P f r msg out st n out' r' ->
  hs_partial (r_part r) -> hs_partial (r_part r').
Proof. intros P f r msg out st n out' r' H Hp. inversion H; subst; try assumption; exact hs_partial_nil. Qed.

Lemma recv_part : forall P f r hdr payload out st n out' r', recv P f r hdr payload out st n out' r' ->
  hs_partial (r_part r) -> hs_partial (r_part r').
Proof.
  intros P f r hdr payload out st n out' r' H Hp. inversion H; subst; try assumption.
  eapply accept_part; eauto.
Qed.

Lemma rx_part_ok : forall P r ops rs r', rx_run P r ops rs r' ->
  hs_partial (r_part r) -> hs_partial (r_part r').
Proof. intros P r ops rs r' H. induction H; intros; eauto using recv_part. Qed.

Lemma C21_once : forall P lib a ops rs x r content pad payload buf ms ku,
  connection P lib a ops rs x -> received P a ops rs r -> open_rx r ->
  let msg := inner ty_handshake content pad in
  next_record P r msg payload -> bytes_ok content -> lenN content + pad <= 16384 -> lenN msg <= lenN buf ->
  r_part r ++ content = concat ms ++ ku ->
  Forall hs_msg ms -> Forall (fun m => is_ticket m = true) ms -> hs_msg ku -> is_key_update ku = true ->
  is_key_update (r_part r) = false ->
  exists x' out r',
    let op := (CUnprotect (tls_header (lenN msg + 16)) payload buf, []) in
    cstep P lib x (fst op) [] = Done (x', CUnprotected S_OK 0 out) /\
    received P a (ops ++ [op]) (rs ++ [CUnprotected S_OK 0 out]) r' /\
    r_dir r' = dir_update P (dir_next (r_dir r)).
Proof.
  intros P lib a ops rs x r content pad payload buf ms ku (H1 & H2 & H3 & H4 & H5) (Hr & Hb) (Hc & Hu) msg
    (Hv & Hp) Hbc Hl Hbuf E Hm Ht Hk Hku Hno.
  assert (Hkl : key_update_last (ms ++ [ku]) []).
  { clear -Ht. induction ms as [|m ms IH]; cbn [app key_update_last].
    - split; [auto|exact I].
    - inversion Ht as [|? ? T1 T2]; subst. split; [|exact (IH T2)].
      intro K. exfalso. destruct m as [|t m]; [discriminate|].
      unfold is_ticket, is_key_update, has_type in *. apply N.eqb_eq in T1, K. congruence. }
  destruct (hs_lemma P lib a ops rs x H1 H2 H3 H4 H5 r Hr Hb content pad payload buf (ms ++ [ku]) [])
    as (x' & out & _ & Hs & Hrx); auto.
  - rewrite concat_app. cbn [concat]. rewrite !app_nil_r. exact E.
  - apply Forall_app; auto.
  - apply Forall_app; split; [apply tickets_known; exact Ht|]. constructor; [right; exact Hku|constructor].
  - exact hs_partial_nil.
  - congruence.
  - exists x', out. eexists. cbn [fst]. split; [exact Hs|]. split; [split; [exact Hrx|exact Hb]|].
    cbn [r_dir rx_read]. assert (Hh : has_key_update content (ms ++ [ku]) [] = true); [|rewrite Hh; reflexivity].
    unfold has_key_update. rewrite !existsb_app. cbn [existsb]. rewrite Hku, orb_true_r. cbn [orb].
    rewrite andb_true_r. destruct content as [|b c]; [|reflexivity].
    exfalso. rewrite app_nil_r in E. rewrite E in Hno.
    destruct ms as [|m ms]; cbn [concat app] in Hno; [congruence|].
    (* the buffer would hold a complete message *)
    pose proof (rx_part_ok _ _ _ _ _ Hr hs_partial_nil) as Hpart.
    destruct (partial_no_msg (r_part r) (m :: ms) ku Hpart E Hm) as [Hnil _]. discriminate.
Qed.

Section Wrap.
Variables (P : prims) (lib : ssl_lib) (a : create_args) (ops : list (cop * faults))
  (rs : list cres) (x : crypt).
Hypothesis HC : connection P lib a ops rs x.

Let H1 := proj1 HC.
Let H2 := proj1 (proj2 HC).
Let H3 := proj1 (proj2 (proj2 HC)).
Let H4 := proj1 (proj2 (proj2 (proj2 HC))).
Let H5 := proj2 (proj2 (proj2 (proj2 HC))).

Lemma W04 : forall e, NoDup (nonces (cx_out x) e).
Proof. exact (C04_crypter_lemma P lib a ops rs x H1 H2 H3 H4 H5). Qed.

Lemma W13 : forall hdr payload buf fs x' st n out,
  cop_ok (CUnprotect hdr payload buf) ->
  cstep P lib x (CUnprotect hdr payload buf) fs = Done (x', CUnprotected st n out) ->
  st <> S_OK ->
  n = 0 /\
  (out = IoBuf buf \/ out = IoBuf (zeros (lenN buf)) \/
   exists k msg, iov_concat payload = dir_seal P k hdr msg /\
     out = IoBuf (msg ++ dropN (lenN msg) buf) /\
     (msg = zeros (lenN msg) \/
      (exists c pad, msg = inner ty_application_data c pad /\ st = S_INVALID_RECORD /\ cx_expecting x = true) \/
      (exists c pad, msg = inner ty_handshake c pad /\ st = S_INTERNAL_ERROR))).
Proof. exact (C13_lemma P lib a ops rs x H1 H2 H3 H4 H5). Qed.

Lemma W14 : forall n0 b0, In (CUnprotected S_ALERT_CLOSE_NOTIFY n0 b0) rs ->
  forall hdr payload buf fs, cop_ok (CUnprotect hdr payload buf) ->
  cstep P lib x (CUnprotect hdr payload buf) fs =
    Done (x, CUnprotected S_ALERT_CLOSE_NOTIFY 0 (IoBuf buf)).
Proof. exact (C14_lemma P lib a ops rs x H1 H2 H3 H4 H5). Qed.

Lemma W16 : forall hdr payload buf fs, cop_ok (CUnprotect hdr payload buf) ->
  ~ well_formed hdr (sum_lens payload) ->
  exists c, cstep P lib x (CUnprotect hdr payload buf) fs =
    Done (x, CUnprotected c 0 (IoBuf buf)) /\
    (c = S_ALERT_CLOSE_NOTIFY \/
     c = (if 16384 + 22 <? lenN hdr + sum_lens payload
          then S_ALERT_RECORD_OVERFLOW else S_FAILED_PRECONDITION)) /\
    (c = S_ALERT_CLOSE_NOTIFY <-> cx_close x = true).
Proof. exact (C16_lemma P lib a ops rs x H1 H2 H3 H4 H5). Qed.

Lemma W19r : forall r, rx_run P (rx_start (d_in a)) ops rs r -> cx_sent x = [] \/
  exists s rest, cx_sent x = [s] /\ ts_tickets s <> [] /\ lenN (ts_tickets s) <= 5 /\
    tickets_of (r_msgs r) = ts_tickets s ++ rest /\
    ts_url s = ca_url a /\ ts_connection_id s = ca_connection_id a /\ ts_identity s = ca_identity a.
Proof. exact (C19_lemma P lib a ops rs x H1 H2 H3 H4 H5). Qed.

Lemma W19 : cx_sent x = [] \/
  exists s, cx_sent x = [s] /\ lenN (ts_tickets s) <= 5 /\ ts_url s = ca_url a /\
    ts_connection_id s = ca_connection_id a /\ ts_identity s = ca_identity a.
Proof. exact (C19_weak_lemma P lib a ops rs x H1 H2 H3 H4 H5). Qed.

Lemma W31 : forall t pt buf fs, cop_ok (CProtect t pt buf) ->
  let d := tx_run P (d_out a) ops rs in
  let rec := tls_record P d (record_type_number t) (iov_concat pt) 0 in
  exists x' st n buf',
    cstep P lib x (CProtect t pt buf) fs = Done (x', CProtected st n (IoBuf buf')) /\
    lenN buf' = lenN buf /\
    (st = S_OK -> n = sum_lens pt + 22 /\ buf' = rec ++ dropN n buf /\ lenN rec = n) /\
    (st <> S_OK -> n = 0 /\ (buf' = buf \/ buf' = zeros (lenN buf))) /\
    (st = S_FAILED_PRECONDITION -> buf' = buf /\ x' = x) /\
    (fits_in pt buf = false -> st = S_FAILED_PRECONDITION) /\
    (fits_in pt buf = true -> ~ dir_usable d -> st = S_INTERNAL_ERROR) /\
    (fits_in pt buf = true -> dir_usable d -> Forall iov_valid pt -> fs = [] -> st = S_OK).
Proof. exact (protect_lemma P lib a ops rs x H1 H2 H3 H4 H5). Qed.

Lemma W33 : forall hdr payload buf fs x' n out,
  cop_ok (CUnprotect hdr payload buf) ->
  cstep P lib x (CUnprotect hdr payload buf) fs = Done (x', CUnprotected S_OK n out) ->
  hc_always_fail (cx_in x) = false /\
  let k := hc_epoch (cx_in x) in
  let d := {| d_suite := ca_suite a;
              d_secret := nth_secret P (ca_suite a) (ca_in_secret a) (N.to_nat k);
              d_seq := key_start (ca_in_seq a) k + lenN (nonces (cx_in x) k);
              d_broken := false |} in
  hdr = tls_header (sum_lens payload) /\
  exists ty content pad, (ty = ty_application_data \/ ty = ty_handshake) /\
    iov_concat payload = dir_seal P d hdr (inner ty content pad) /\
    (ty = ty_application_data -> n = lenN content /\ takeN n (iov_data out) = content) /\
    (ty = ty_handshake -> n = 0).
Proof. exact (C33_lemma P lib a ops rs x H1 H2 H3 H4 H5). Qed.

Lemma Wrx : exists r, rx_run P (rx_start (d_in a)) ops rs r.
Proof. exact (rx_exists P lib a ops rs x H1 H2 H3 H4 H5). Qed.

Variable r : rx.
Hypothesis HR : received P a ops rs r.
Let R1 := proj1 HR.
Let R2 := proj2 HR.

Lemma Wstep : forall hdr payload buf fs, cop_ok (CUnprotect hdr payload buf) ->
  match cstep P lib x (CUnprotect hdr payload buf) fs with
  | Done (x', CUnprotected st n out) =>
    exists r', recv P (fs <> []) r hdr (iov_concat payload) buf st n (iov_data out) r'
  | Done _ => False
  | Undef u => u = UbNegativeShift /\ r_closed r = false /\ exists c pad,
      iov_concat payload = dir_seal P (r_dir r) hdr (inner ty_handshake c pad) /\
      fatal (r_part r ++ c)
  | NoFuel => False
  end.
Proof.
  intros hdr payload buf fs Hop.
  pose proof (refine_lemma P lib a ops rs x H1 H2 H3 H4 H5 r R1 R2 hdr payload buf fs Hop) as K.
  destruct (cstep P lib x (CUnprotect hdr payload buf) fs) as [[x' [| |]]|u|]; auto.
  destruct K as (r' & K & _). exists r'. exact K.
Qed.

Lemma W15 : forall content pad payload buf,
  let msg := inner ty_application_data content pad in
  open_rx r -> r_part r = [] -> bytes_ok content -> lenN content + pad <= 16384 ->
  lenN msg <= lenN buf -> next_record P r msg payload ->
  exists x' out, cstep P lib x (CUnprotect (tls_header (lenN msg + 16)) payload buf) [] =
      Done (x', CUnprotected S_OK (lenN content) out) /\
    takeN (lenN content) (iov_data out) = content.
Proof.
  intros content pad payload buf msg (Ho1 & Ho2) Hp Hb Hl Hbuf (Hv & He).
  exact (C15_lemma P lib a ops rs x H1 H2 H3 H4 H5 r R1 R2 content pad payload buf Ho1 Ho2 Hp Hb Hl Hbuf Hv He).
Qed.

Lemma W15z : forall k payload buf,
  open_rx r -> 1 <= k <= 16384 + 1 -> k <= lenN buf -> next_record P r (zeros k) payload ->
  exists x' out, cstep P lib x (CUnprotect (tls_header (k + 16)) payload buf) [] =
      Done (x', CUnprotected S_INVALID_RECORD 0 out).
Proof.
  intros k payload buf (Ho1 & Ho2) Hk Hbuf (Hv & He).
  apply (C15_zero_lemma P lib a ops rs x H1 H2 H3 H4 H5 r R1 R2 k payload buf Ho1 Ho2 Hk Hbuf Hv).
  rewrite He, lenN_zeros. reflexivity.
Qed.

Lemma W17 : forall content pad payload buf,
  let msg := inner ty_application_data content pad in
  open_rx r -> r_part r <> [] -> lenN (tickets_of (r_msgs r)) < 5 -> bytes_ok content ->
  lenN content + pad <= 16384 -> lenN msg <= lenN buf -> next_record P r msg payload ->
  exists x' out, cstep P lib x (CUnprotect (tls_header (lenN msg + 16)) payload buf) [] =
      Done (x', CUnprotected S_INVALID_RECORD 0 out).
Proof.
  intros content pad payload buf msg (Ho1 & Ho2) Hp H5' Hb Hl Hbuf (Hv & He).
  exact (C17_lemma P lib a ops rs x H1 H2 H3 H4 H5 r R1 R2 content pad payload buf Ho1 Ho2 Hp H5' Hb Hl Hbuf Hv He).
Qed.

Lemma W17x : forall content pad payload buf,
  let msg := inner ty_application_data content pad in
  open_rx r -> bytes_ok content ->
  lenN content + pad <= 16384 -> lenN msg <= lenN buf -> next_record P r msg payload ->
  exists x' out, cstep P lib x (CUnprotect (tls_header (lenN msg + 16)) payload buf) [] =
      Done (x', if r_wait r then CUnprotected S_INVALID_RECORD 0 out
                else CUnprotected S_OK (lenN content) out) /\
    (r_wait r = false -> takeN (lenN content) (iov_data out) = content).
Proof.
  intros content pad payload buf msg (Ho1 & Ho2) Hb Hl Hbuf (Hv & He).
  destruct (data_lemma P lib a ops rs x H1 H2 H3 H4 H5 r R1 R2 content pad payload buf Ho1 Ho2 Hb Hl Hbuf Hv He)
    as (x' & out & E & K & _). exists x', out. auto.
Qed.

Lemma W17wait : d_broken (r_dir r) = false ->
  (r_part r = [] -> r_wait r = false) /\
  (r_part r <> [] -> lenN (tickets_of (r_msgs r)) < 5 -> r_wait r = true).
Proof. exact (R_wait P lib a ops rs x H1 H2 H3 H4 H5 r R1 R2). Qed.

Lemma W20x : map ts_tickets (cx_sent x) = r_sent r.
Proof. exact (C20_exact_lemma P lib a ops rs x H1 H2 H3 H4 H5 r R1 R2). Qed.

Lemma W20five : d_broken (r_dir r) = false -> (5 <= length (tickets_of (r_msgs r)))%nat ->
  cx_sent x <> [] \/ (6 <= length (tickets_of (r_msgs r ++ [r_part r])))%nat.
Proof. exact (C20_five_lemma P lib a ops rs x H1 H2 H3 H4 H5 r R1 R2). Qed.

Lemma W20fifth : forall hdr payload buf fs x' st n out r',
  cop_ok (CUnprotect hdr payload buf) ->
  cstep P lib x (CUnprotect hdr payload buf) fs = Done (x', CUnprotected st n out) ->
  received P a (ops ++ [(CUnprotect hdr payload buf, fs)]) (rs ++ [CUnprotected st n out]) r' ->
  d_broken (r_dir r') = false ->
  (length (tickets_of (r_msgs r)) < 5 <= length (tickets_of (r_msgs r')))%nat ->
  is_ticket (r_part r') = false -> cx_sent x = [] ->
  exists s, cx_sent x' = [s] /\ ts_tickets s = firstn 5 (tickets_of (r_msgs r')).
Proof.
  intros hdr payload buf fs x' st n out r' Ho Hs (Hr1 & Hr2).
  exact (C20_fifth_lemma P lib a ops rs x H1 H2 H3 H4 H5 r R1 R2 hdr payload buf fs x' st n out r' Ho Hs Hr1 Hr2).
Qed.

Lemma W20data : forall hdr payload buf fs x' n out,
  cop_ok (CUnprotect hdr payload buf) ->
  cstep P lib x (CUnprotect hdr payload buf) fs = Done (x', CUnprotected S_OK n out) -> n <> 0 ->
  (1 <= length (tickets_of (r_msgs r)) < 5)%nat ->
  exists s, cx_sent x' = [s] /\ (cx_sent x = [] -> ts_tickets s = tickets_of (r_msgs r)).
Proof.
  intros hdr payload buf fs x' n out Ho Hs Hn Ht.
  pose proof (Wstep hdr payload buf fs Ho) as K. rewrite Hs in K. destruct K as (r' & K).
  exact (C20_data_lemma P lib a ops rs x H1 H2 H3 H4 H5 r R1 R2 hdr payload buf fs x' n out r' Ho Hs Hn
    (rx_run_snoc _ _ _ _ _ _ _ _ _ _ _ _ _ R1 R2 K) Ht).
Qed.

Lemma W22 : forall op fs, cop_ok op ->
  (exists y, cstep P lib x op fs = Done y) \/
  (r_closed r = false /\ exists hdr payload buf c pad, op = CUnprotect hdr payload buf /\
    iov_concat payload = dir_seal P (r_dir r) hdr (inner ty_handshake c pad) /\
    fatal (r_part r ++ c)).
Proof.
  intros op fs Ho.
  destruct (cstep P lib x op fs) as [y|u|] eqn:E; [left; exists y; reflexivity| |]; right;
    apply (C22_lemma P lib a ops rs x H1 H2 H3 H4 H5 r R1 R2 op fs Ho); rewrite E; intros; discriminate.
Qed.

Lemma W22x : forall content pad payload buf,
  let msg := inner ty_handshake content pad in
  open_rx r -> bytes_ok content -> lenN content + pad <= 16384 ->
  lenN msg <= lenN buf -> next_record P r msg payload ->
  (cstep P lib x (CUnprotect (tls_header (lenN msg + 16)) payload buf) [] = Undef UbNegativeShift <->
   fatal (r_part r ++ content)).
Proof.
  intros content pad payload buf msg (Ho1 & Ho2) Hb Hl Hbuf (Hv & He).
  exact (C22_exact_lemma P lib a ops rs x H1 H2 H3 H4 H5 r R1 R2 content pad payload buf Ho1 Ho2 Hb Hl Hbuf Hv He).
Qed.
End Wrap.

Lemma W17fifth : forall P a ops rs r, received P a ops rs r -> r_part r <> [] -> r_wait r = false ->
  exists ops1 op ops2 rs1 re rs2 r1 r2, ops = ops1 ++ op :: ops2 /\ rs = rs1 ++ re :: rs2 /\
    received P a ops1 rs1 r1 /\ received P a (ops1 ++ [op]) (rs1 ++ [re]) r2 /\
    lenN (tickets_of (r_msgs r1)) < 5 <= lenN (tickets_of (r_msgs r2)) /\
    r_msgs r2 = r_msgs r /\ r_part r2 = r_part r.
Proof.
  intros P a ops rs r (Hr & Hb) Hp Hw.
  destruct (wait_exception _ _ _ _ _ Hr Hb ltac:(intros _ _; reflexivity) Hp Hw)
    as [(E & _)|(ops1 & op & ops2 & rs1 & re & rs2 & r1 & r2 & E1 & E2 & E3 & E4 & E5 & E6 & E7)].
  - exfalso. apply Hp. rewrite <- E. reflexivity.
  - exists ops1, op, ops2, rs1, re, rs2, r1, r2. split; [exact E1|]. split; [exact E2|].
    split; [split; assumption|]. split; [split; [eapply rx_run_app; eauto|exact E6]|exact E7].
Qed.

Lemma W30in : forall P lib ops x h x' rs,
  crun P lib x ops = Done (x', rs) ->
  crun P lib (set_out x h) (filter is_inbound ops) = Done (set_out x' h, filter is_inbound_res rs).
Proof. exact C30_in_lemma. Qed.

Lemma set_out_id : forall x, set_out x (cx_out x) = x.
Proof. destruct x; reflexivity. Qed.

Lemma W30in' : forall P lib ops x x' rs,
  crun P lib x ops = Done (x', rs) ->
  exists y, crun P lib x (filter is_inbound ops) = Done (y, filter is_inbound_res rs).
Proof.
  intros P lib ops x x' rs H. pose proof (C30_in_lemma _ _ _ _ (cx_out x) _ _ H) as K.
  rewrite set_out_id in K. eexists. exact K.
Qed.

Lemma W32 : forall P lib a fs, prims_ok P -> ca_in_seq a < two64 -> ca_out_seq a < two64 ->
  let valid := ca_url a <> [] /\ ca_logger a = true /\ ca_sender a = true /\ ca_tls a = TLS1_3 /\
     lenN (ca_in_secret a) = spec_hash_len (ca_suite a) /\
     lenN (ca_out_secret a) = spec_hash_len (ca_suite a) in
  exists r fs', crypt_create P lib a fs = Done (r, fs') /\
    (forall c, r = inl c -> c <> kOk) /\
    ((exists x, r = inr x) -> valid) /\
    (valid -> fs = [] -> exists x, r = inr x).
Proof.
  intros P lib a fs HP Hi Ho valid.
  destruct (crypt_create_spec P lib a fs HP Hi Ho) as (r & fs' & E & E1 & E2 & E3 & _).
  exists r, fs'. split; [exact E|]. split; [exact E1|]. split.
  - intros (x & ->). destruct (E2 x eq_refl) as (A & B & C & D & F & G & _). repeat split; auto.
  - intros (A & B & C & D & F & G) Hf. destruct (E3 A B C D F G Hf) as (_ & K). exact K.
Qed.

Lemma W18 : forall ms part recs c, ticket_stream ms part ->
  Forall bytes_ok (recs ++ [c]) -> concat (recs ++ [c]) = concat ms ++ part ->
  exists h rs h' r,
    hs_feed new_handler recs = Done (h, map inr rs) /\
    process_handshake_message h c = Done (h', inr r) /\
    r_expecting r = negb (empty part) /\
    r_num r = N.min 5 (lenN ms) /\ r_key_update r = false /\
    (part = [] -> exists h'' ts, get_stored_tickets h' = Done (h'', inr ts) /\
       map (@concat N) ts = firstn 5 ms).
Proof.
  intros ms part recs c (H1 & H2 & H3 & H4). exact (C18_lemma ms part H1 H2 H3 H4 recs c).
Qed.
