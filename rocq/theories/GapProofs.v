(* Proofs for C27: exactly which empty buffers are read out of bounds. *)
From Coq Require Import List NArith ZArith Bool Lia ZifyBool ZifyNat ZifyN.
From Verif Require Import Base BaseProofs Aead SpecAead AeadProofs Hkdf HalfConn
  SpecTls HkdfProofs HalfProofs Options HsHandler SpecHs HsProofs Crypter SpecRecord CrypterProofs
  SpecRx SpecRxProofs CrypterRun CrypterRunProofs CrypterLemmas CrypterLemmas2 FrameProt SpecFrame FrameRun FrameProofs Calm FrameRx FrameSim FrameFinal
  FrameRef FrameRefProofs EveryFrame SpecGap.
Import ListNotations.
Local Open Scope N_scope.

Definition cur_gap (c : cursor) (n : N) : Prop :=
  exists pre v post, fst c = pre ++ v :: post /\ iov_len v = 0 /\ lenN (iov_concat pre) = n + snd c.

Lemma gap_start : forall input n, cur_gap (input, 0) n <-> empty_at input n.
Proof. intros input n. unfold cur_gap, empty_at. cbn [fst snd]. rewrite N.add_0_r. reflexivity. Qed.

Lemma gap_now : forall c, valid_cur c -> cur_gap c 0 -> bad_read (read_byte c).
Proof.
  intros [[|v vs] on] (Hv & Hc & _) (pre & w & post & E & Hw & Hl); cbn [fst snd] in *; [destruct pre; discriminate|].
  assert (K : on = 0 /\ iov_len v = 0).
  { destruct pre as [|v' pre]; injection E as -> ->.
    - cbn in Hl. unfold lenN in *. cbn in Hl. split; [lia|exact Hw].
    - rewrite iov_concat_cons, lenN_app in Hl. pose proof (valid_len v' (Forall_inv Hv)) as L.
      destruct Hc as [->|(d & -> & Hd)]; cbn [iov_len iov_data] in *; [split; lia|lia]. }
  destruct K as [-> K]. cbn [read_byte]. destruct v as [d|m]; cbn [iov_read obind iov_len] in *.
  - apply lenN_0 in K. subst d. left. reflexivity.
  - right. reflexivity.
Qed.

Lemma bad_now : forall c u, valid_cur c -> read_byte c = Undef u -> cur_gap c 0 /\ bad_read (read_byte c).
Proof.
  intros [[|v vs] on] u (Hv & Hc & _) E; cbn [read_byte fst snd] in *; [discriminate|].
  assert (K : iov_len v = 0 /\ on = 0).
  { pose proof (Forall_inv Hv) as Vv. destruct v as [d|m]; cbn [iov_read iov_len iov_valid] in *.
    - rewrite nth_dropN in E. destruct (dropN on d) as [|b rest] eqn:Ed; [|discriminate].
      assert (L : lenN (dropN on d) = 0) by (rewrite Ed; reflexivity). rewrite lenN_dropN in L.
      destruct Hc as [->|(d' & E' & H')]; [lia|injection E' as <-; lia].
    - destruct Hc as [->|(d' & E' & H')]; [auto|discriminate]. }
  destruct K as [K ->]. split.
  - exists [], v, vs. cbn [fst snd]. split; [reflexivity|]. split; [exact K|]. reflexivity.
  - destruct v as [d|m]; cbn [iov_read obind iov_len] in *; [apply lenN_0 in K; subst d; left; reflexivity|right; reflexivity].
Qed.

Lemma gap_next : forall c b c' n, valid_cur c -> read_byte c = Done (Some (b, c')) -> cur_gap c' n <-> cur_gap c (1 + n).
Proof.
  intros [[|v vs] on] b c' n (Hv & Hc & _) E; cbn [read_byte fst snd] in *; [discriminate|].
  destruct v as [d|m]; cbn [iov_read iov_len] in *; [|discriminate].
  rewrite nth_dropN in E. destruct (dropN on d) as [|b0 rest] eqn:Ed; cbn [nth_error obind] in E; [discriminate|].
  assert (L : lenN (dropN on d) = 1 + lenN rest) by (rewrite Ed, lenN_cons; reflexivity). rewrite lenN_dropN in L.
  injection E as <- <-. destruct (N.leb_spec (lenN d) (on + 1)) as [H|H]; unfold cur_gap; cbn [fst snd].
  - split.
    + intros (pre & w & post & -> & Hw & Hl). exists (IoBuf d :: pre), w, post. split; [reflexivity|]. split; [exact Hw|].
      rewrite iov_concat_cons, lenN_app. cbn [iov_data]. lia.
    + intros (pre & w & post & Ew & Hw & Hl). destruct pre as [|v pre]; injection Ew as <- ->.
      * cbn [iov_len] in Hw. lia.
      * exists pre, w, post. split; [reflexivity|]. split; [exact Hw|]. rewrite iov_concat_cons, lenN_app in Hl. cbn [iov_data] in Hl. lia.
  - split; intros (pre & w & post & Ew & Hw & Hl); exists pre, w, post; (split; [exact Ew|split; [exact Hw|lia]]).
Qed.

(* ---- the header ---- *)
Definition hdr_from (j : nat) (h : bytes) : Prop := forall i b, nth_error h i = Some b -> hdr_byte_ok (j + i) b = true.

Lemma hdr_from_cons : forall j b h, hdr_from j (b :: h) <-> hdr_byte_ok j b = true /\ hdr_from (S j) h.
Proof.
  intros j b h. split.
  - intros H. split; [rewrite <- (Nat.add_0_r j); apply H; reflexivity|]. intros i x Hi. replace (S j + i)%nat with (j + S i)%nat by lia. apply H. exact Hi.
  - intros [H1 H2] [|i] x Hi; cbn in Hi.
    + injection Hi as <-. rewrite Nat.add_0_r. exact H1.
    + replace (j + S i)%nat with (S j + i)%nat by lia. apply H2. exact Hi.
Qed.

Lemma hdr_from_nil : forall j, hdr_from j [].
Proof. intros j [|i] b H; discriminate. Qed.

Lemma hdr_from_late : forall j h, (3 <= j)%nat -> hdr_from j h.
Proof. intros j h Hj i b _. destruct j as [|[|[|j]]]; try lia. reflexivity. Qed.

Lemma header_start_from : forall h, header_start h <-> hdr_from 0 h.
Proof.
  intros h. unfold header_start. destruct h as [|b0 [|b1 [|b2 h]]].
  - split; [intros _; apply hdr_from_nil|reflexivity].
  - rewrite hdr_from_cons. change (takeN 3 [b0]) with [b0]. change (takeN (lenN [b0]) [23; 3; 3]) with [23]. cbn [hdr_byte_ok]. rewrite N.eqb_eq.
    split; [intros K; injection K as ->; split; [reflexivity|apply hdr_from_nil]|intros [-> _]; reflexivity].
  - rewrite !hdr_from_cons. change (takeN 3 [b0; b1]) with [b0; b1]. change (takeN (lenN [b0; b1]) [23; 3; 3]) with [23; 3]. cbn [hdr_byte_ok]. rewrite !N.eqb_eq.
    split; [intros K; injection K as -> ->; repeat split; apply hdr_from_nil|intros (-> & -> & _); reflexivity].
  - rewrite !hdr_from_cons. change (takeN 3 (b0 :: b1 :: b2 :: h)) with [b0; b1; b2].
    rewrite takeN_all by (rewrite !lenN_cons, lenN_nil; lia).
    cbn [hdr_byte_ok]. rewrite !N.eqb_eq.
    split; [intros K; injection K as -> -> ->; repeat split; apply hdr_from_late; lia|intros (-> & -> & -> & _); reflexivity].
Qed.

Lemma header_gap : forall k hdr c, valid_cur c -> (length hdr + k = 5)%nat ->
  ((exists i, i < N.of_nat k /\ hdr_from (length hdr) (takeN i (cur_bytes c)) /\ cur_gap c i) -> bad_read (read_header k hdr c)) /\
  (forall u, read_header k hdr c = Undef u -> bad_read (read_header k hdr c) /\
    exists i, i < N.of_nat k /\ hdr_from (length hdr) (takeN i (cur_bytes c)) /\ cur_gap c i) /\
  (forall h c' n, read_header k hdr c = Done (inr (h, c')) -> cur_gap c' n <-> cur_gap c (N.of_nat k + n)).
Proof.
  induction k as [|k IH]; intros hdr c Hc Hlen; cbn [read_header].
  - split; [intros (i & Hi & _); lia|]. split; [discriminate|]. intros h c' n E. injection E as _ <-. reflexivity.
  - destruct (read_byte_spec c Hc) as [(u & E & K)|[(E & K)|(b & r & c' & E & E1 & E2 & V & Ne)]]; rewrite E; cbn [obind].
    + destruct (bad_now c u Hc E) as [G B]. rewrite E in B.
      assert (B' : bad_read (@Undef (code + bytes * cursor) u)) by (destruct B as [B|B]; injection B as ->; [left|right]; reflexivity).
      split; [auto|]. split; [|discriminate].
      intros u0 _. split; [exact B'|]. exists 0. split; [lia|]. split; [rewrite takeN_0; apply hdr_from_nil|exact G].
    + split; [|split; discriminate]. intros (i & _ & _ & pre & v & post & Ev & Hv & Hl).
      destruct c as [[|w vs] on]; cbn [fst snd read_byte] in *; [destruct pre; discriminate|].
      destruct (iov_read w on); discriminate.
    + set (bad := match length hdr with O => negb (b =? kTls12ApplicationData)
                   | 1%nat | 2%nat => negb (b =? kTls12WireVersion) | _ => false end).
      assert (Hbad : bad = negb (hdr_byte_ok (length hdr) b)).
      { unfold bad, hdr_byte_ok. destruct (length hdr) as [|[|[|m]]]; reflexivity. }
      assert (Ng : ~ cur_gap c 0).
      { intros G. apply (gap_now c Hc) in G. rewrite E in G. destruct G; discriminate. }
      destruct bad.
      * split; [|split; discriminate]. intros (i & Hi & Hh & G). exfalso.
        destruct (N.eq_dec i 0) as [->|Hi0]; [contradiction|]. rewrite E1, takeN_cons in Hh by lia.
        apply hdr_from_cons in Hh. destruct Hh as [Hh _]. rewrite Hh in Hbad. discriminate.
      * assert (Hb : hdr_byte_ok (length hdr) b = true) by (destruct (hdr_byte_ok (length hdr) b); [reflexivity|discriminate]).
        assert (Hl' : (length (hdr ++ [b]) = S (length hdr))%nat) by (rewrite app_length; cbn; lia).
        destruct (IH (hdr ++ [b]) c' V ltac:(lia)) as (I1 & I2 & I3). rewrite Hl' in I1, I2. split; [|split].
        -- intros (i & Hi & Hh & G). destruct (N.eq_dec i 0) as [->|Hi0]; [contradiction|]. apply I1. exists (i - 1). split; [lia|].
           rewrite E1, takeN_cons in Hh by lia. apply hdr_from_cons in Hh. rewrite E2. split; [exact (proj2 Hh)|].
           apply (gap_next c b c' (i - 1) Hc E). replace (1 + (i - 1)) with i by lia. exact G.
        -- intros u Hu. destruct (I2 u Hu) as (B & i & Hi & Hh & G). split; [exact B|]. exists (1 + i). split; [lia|]. split.
           ++ rewrite E1, takeN_cons by lia. replace (1 + i - 1) with i by lia. apply hdr_from_cons. rewrite E2 in Hh. auto.
           ++ apply (gap_next c b c' i Hc E). exact G.
        -- intros h c2 n Hh. rewrite (I3 h c2 n Hh), (gap_next c b c' (N.of_nat k + n) Hc E). replace (1 + (N.of_nat k + n)) with (N.of_nat (S k) + n) by lia. reflexivity.
Qed.

(* ---- the payload ---- *)
Lemma isolate_gap : forall vs on need ps c', valid_cur (vs, on) -> isolate_payload vs on need = Done (inr (ps, c')) ->
  forall n, cur_gap c' n <-> cur_gap (vs, on) (need + n).
Proof.
  induction vs as [|v vs IH]; intros on need ps c' (Hv & Hc & Hl) E n; cbn [fst] in *; cbn [isolate_payload] in E.
  - destruct (N.eqb_spec need 0) as [->|Hne]; [injection E as _ <-; reflexivity|discriminate].
  - destruct (N.eqb_spec need 0) as [->|Hne]; [injection E as _ <-; reflexivity|].
    pose proof (Forall_inv Hv) as Vv. pose proof (Forall_inv_tail Hv) as Vr.
    pose proof (Forall_inv Hl) as Lv. pose proof (Forall_inv_tail Hl) as Lr. cbn beta in Lv.
    assert (Hon : on <= iov_len v). { destruct Hc as [->|(d & -> & H)]; cbn [iov_len]; lia. }
    rewrite sub64_small in E by lia. set (k := N.min (iov_len v - on) need) in *.
    destruct (slice_ok v on k Hc ltac:(lia)) as (p & Ep & Lp & V1 & V2 & V3 & V4). rewrite Ep in E. cbn [obind] in E.
    destruct (N.eqb_spec (k + on) (iov_len v)) as [Hfull|Hpart].
    + destruct (isolate_payload vs 0 (need - k)) as [[e|[ps1 c1]]| |] eqn:Ei; cbn [obind] in E; try discriminate. injection E as _ <-.
      assert (Hvc : valid_cur (vs, 0)) by (split; [exact Vr|split; [apply (cur_start vs)|exact Lr]]).
      rewrite (IH 0 (need - k) ps1 c1 Hvc Ei n). unfold cur_gap. cbn [fst snd]. pose proof (valid_len v Vv) as Lvd. split.
      * intros (pre & w & post & -> & Hw & Hn). exists (v :: pre), w, post. split; [reflexivity|]. split; [exact Hw|].
        rewrite iov_concat_cons, lenN_app. lia.
      * intros (pre & w & post & Ew & Hw & Hn). destruct pre as [|v' pre]; injection Ew as -> ->.
        -- unfold lenN in Hn. cbn in Hn. lia.
        -- exists pre, w, post. split; [reflexivity|]. split; [exact Hw|]. rewrite iov_concat_cons, lenN_app in Hn. lia.
    + injection E as _ <-. unfold cur_gap. cbn [fst snd].
      split; intros (pre & w & post & Ew & Hw & Hn); exists pre, w, post; (split; [exact Ew|split; [exact Hw|lia]]).
Qed.

(* ---- one record ---- *)
Lemma bad_read_undef : forall A B u, bad_read (@Undef A u) -> bad_read (@Undef B u).
Proof. intros A B u [H|H]; injection H as ->; [left|right]; reflexivity. Qed.

Lemma compute_gap : forall c, valid_cur c ->
  ((exists i, i < 5 /\ header_start (takeN i (cur_bytes c)) /\ cur_gap c i) <-> bad_read (compute_record_size c)) /\
  (forall u, compute_record_size c = Undef u -> bad_read (compute_record_size c)) /\
  (forall h c' n, compute_record_size c = Done (inr (h, c')) -> cur_gap c' n <-> cur_gap c (5 + n)).
Proof.
  intros c Hc. destruct (header_gap 5 [] c Hc eq_refl) as (A & B & C). fold (compute_record_size c) in A, B, C. cbn [length] in A, B.
  split; [split|split].
  - intros (i & H1 & H2 & H3). apply A. exists i. split; [exact H1|]. split; [apply header_start_from; exact H2|exact H3].
  - intros K. assert (Q : exists u, compute_record_size c = Undef u) by (destruct K as [K|K]; rewrite K; eauto).
    destruct Q as [u Q]. destruct (B u Q) as (_ & i & H1 & H2 & H3). exists i. split; [exact H1|]. split; [apply header_start_from; exact H2|exact H3].
  - intros u Q. exact (proj1 (B u Q)).
  - exact C.
Qed.

Lemma G27into : forall P lib al a ops rs f, protector P lib al a ops rs f -> forall input buf fs, fop_ok (FUnprotectInto input buf) ->
  bad_read (fstep P lib al f (FUnprotectInto input buf) fs) <->
  22 <= lenN (iov_concat input) /\ empty_in_header input 0 (iov_concat input).
Proof.
  intros P lib al a ops rs f Hp input buf fs Hop.
  destruct (N.lt_ge_cases (lenN (iov_concat input)) 22) as [Hlt|Hge].
  { rewrite (UF31 _ _ _ _ _ _ _ Hp input buf fs Hop Hlt). split; [intros [K|K]; discriminate|intros [K _]; lia]. }
  assert (Eg : 22 <= lenN (iov_concat input) /\ empty_in_header input 0 (iov_concat input) <->
    exists i, i < 5 /\ header_start (takeN i (iov_concat input)) /\ cur_gap (input, 0) i).
  { unfold empty_in_header. split; [intros [_ (i & H1 & H2 & H3)]|intros (i & H1 & H2 & H3); split; [exact Hge|]]; exists i;
      (split; [exact H1|split; [exact H2|]]); apply gap_start; rewrite ?N.add_0_l in *; exact H3. }
  rewrite Eg. clear Eg. pose proof Hop as (Hv & Hb & Hs). pose proof Hp as (HP & HA & _).
  destruct (protector_winv _ _ _ _ _ _ _ Hp) as (d & din & W & Ro & Ri). cbn [fstep].
  assert (Hl : 22 <= sum_lens input) by (rewrite (sum_lens_concat input Hv); exact Hge).
  destruct (cur_start input) as (C1 & C2 & C3).
  pose proof (start_valid _ Hv ltac:(lia)) as Vc. destruct (compute_gap (input, 0) Vc) as (A & B & _). rewrite C3 in A. rewrite A. clear A.
  unfold fp_unprotect_into. rewrite total_len_sum by lia.
  unfold bind at 1, lift at 1, number_bytes_to_unprotect. rewrite (record_overhead_spec _ _ _ Ri). cbn [obind].
  destruct (N.ltb_spec (sum_lens input) 22) as [H|H]; [lia|].
  unfold kTlsRecordHeaderSize. destruct (N.eqb_spec (sum_lens input - 5) 0) as [K|_]; [lia|].
  destruct (rec_spec (input, 0) Vc ltac:(rewrite C3; exact Hb))
    as [u E Hn|Hn E|hdr vs on Hn E E2|hdr vs on ps c' E E2 Hsz Hr Hvp Hcb Hc' Hne];
    unfold bind at 1, lift at 1; rewrite E.
  - specialize (B u E). rewrite E in B. cbn [obind]. split; [apply bad_read_undef|intros _; exact (bad_read_undef _ _ _ B)].
  - split; intros [K|K]; discriminate.
  - unfold bind at 1, lift at 1. rewrite E2. split; intros [K|K]; discriminate.
  - unfold bind at 1, lift at 1. rewrite E2. split; [|intros [K|K]; discriminate]. intros K. exfalso.
    rewrite C3 in Hcb. rewrite Hcb in Hb. destruct (bytes_ok_app _ _ Hb) as [Hb1 Hb2]. apply bytes_ok_app in Hb2. destruct Hb2 as [Hb3 Hb4].
    assert (Hcop : cop_ok (CUnprotect hdr ps buf)).
    { cbn [cop_ok]. split; [exact Hb1|]. split; [exact Hvp|]. split; [exact Hb3|].
      rewrite (sum_lens_concat input Hv), Hcb, !lenN_app, <- (sum_lens_concat ps Hvp) in Hs. lia. }
    pose proof (cstep_weak P lib (c_args a) (fp_crypt f) d (CUnprotect hdr ps buf) fs HP W Hcop) as Hw. cbn [cstep] in Hw.
    unfold bind at 1 in K.
    destruct (crypt_unprotect P lib (fp_crypt f) (IoBuf hdr) ps (IoBuf buf) fs) as [[[[x1 [s n]] out] fs1]|u|]; cbn [obind] in Hw, K.
    + destruct s; destruct K as [K|K]; discriminate.
    + cbn [safe] in Hw. subst u. destruct K as [K|K]; discriminate.
    + destruct K as [K|K]; discriminate.
Qed.

(* ---- several records ---- *)
(* Whether a record is accepted depends on the size of the buffer only. *)
Lemma recv_buf : forall P r hdr p b1 b2 n o1 r1, prims_ok P -> lenN b1 = lenN b2 ->
  recv P False r hdr p b1 S_OK n o1 r1 -> exists o2, recv P False r hdr p b2 S_OK n o2 r1.
Proof.
  intros P r hdr p b1 b2 n o1 r1 HP L H.
  inversion H; subst; try (match goal with A : (if ?b then _ else _) = S_OK |- _ => destruct b; discriminate end).
  match goal with A : accept _ _ _ ?m _ _ _ _ _ |- _ => exists (m ++ dropN (lenN m) b2); inversion A; subst end;
    (eapply RvRecord; [assumption|assumption|assumption|reflexivity|lia|]); econstructor; eauto; fail.
Qed.

Lemma recv_fatal : forall P r hdr p buf n out r1 c pad, prims_ok P -> recv P False r hdr p buf S_OK n out r1 -> r_bad r1 = false ->
  p = dir_seal P (r_dir r) hdr (inner ty_handshake c pad) -> fatal (r_part r ++ c) -> False.
Proof.
  intros P r hdr p buf n out r1 c pad HP H Hb E Hf.
  inversion H; subst; try (match goal with A : (if ?b then _ else _) = S_OK |- _ => destruct b; discriminate end).
  match goal with A : dir_seal P _ _ _ = dir_seal P _ _ ?m |- _ => apply dir_seal_inj in A; [subst m|exact HP] end.
  match goal with A : accept _ _ _ _ _ _ _ _ _ |- _ => inversion A; subst end;
    try match goal with A : inner _ _ _ = inner _ _ _ |- _ => apply inner_inj in A; [|discriminate..]; destruct A as (A1 & A2 & A3); try discriminate; subst end.
  - cbn [rx_dir r_part] in *. match goal with A : r_part r ++ _ = concat ms ++ part |- _ => rewrite A in Hf end.
    apply fatal_malformed in Hf. revert Hf. apply not_malformed; assumption.
Qed.

Definition gaps (P : prims) (c : cursor) (r : rx) : Prop := exists ps rest r', cur_bytes c = concat (map framed ps) ++ rest /\
  accepted P r ps r' /\ r_bad r' = false /\ 22 <= lenN rest /\
  exists i, i < 5 /\ header_start (takeN i rest) /\ cur_gap c (lenN (concat (map framed ps)) + i).

Definition spoilt (P : prims) (c : cursor) (r : rx) : Prop := exists ps rest r', cur_bytes c = concat (map framed ps) ++ rest /\
  accepted P r ps r' /\ r_bad r' = true.

Lemma gaps_here : forall P c r, r_bad r = false -> valid_cur c -> 22 <= lenN (cur_bytes c) -> bad_read (compute_record_size c) -> gaps P c r.
Proof.
  intros P c r Hb Hc Hl K. apply (compute_gap c Hc) in K. exists [], (cur_bytes c), r. split; [reflexivity|]. split; [constructor|].
  split; [exact Hb|]. split; [exact Hl|]. exact K.
Qed.

Lemma gaps_none : forall P c r, valid_cur c -> ~ starts_with_record (cur_bytes c) -> gaps P c r -> bad_read (compute_record_size c).
Proof.
  intros P c r Hc Hs (ps & rest & r' & E & Ha & _ & _ & i & H1 & H2 & H3). destruct Ha as [r|r p buf n out r1 ps r' _ Hp _ _ _].
  - cbn [map concat app] in E. apply (compute_gap c Hc). exists i. rewrite E. auto.
  - exfalso. apply Hs. rewrite E. cbn [map concat]. rewrite <- app_assoc. apply framed_starts. exact Hp.
Qed.

Ltac nope := let K := fresh "K" in intros [K|K]; cbv [ret lift bind] in K; cbn [fold_left] in K; discriminate K.

Lemma loop_gap : forall fuel P lib al a f c dout acc tx r,
  prims_ok P -> alloc_ok al -> cx_winv P a (fp_crypt f) dout -> valid_cur c -> bytes_ok (cur_bytes c) ->
  lenN (cur_bytes c) + 5 < two64 -> lenN (cur_bytes c) / 22 < N.of_nat fuel -> rx_rel P (fp_crypt f) tx r ->
  forall B0, B0 = bad_read (unprotect_loop fuel P lib al f c (lenN (cur_bytes c)) acc []) ->
  (gaps P c r -> B0) /\ (B0 -> gaps P c r \/ spoilt P c r).
Proof.
  induction fuel as [|fuel IH]; intros P lib al a f c dout acc tx r HP HA W Hc Hb Hsz Hfuel Hr B0 EB; [lia|].
  destruct (cw_in _ _ _ _ W) as (din & Ri & _). pose proof (proj1 Hr) as Hbad.
  cbn [unprotect_loop] in EB. unfold bind at 1, lift at 1 in EB. rewrite (record_overhead_spec _ _ _ Ri) in EB.
  destruct (N.ltb_spec (lenN (cur_bytes c)) 22) as [Hend|Hgo].
  { subst B0. split; [|nope]. intros (ps & rest & r' & E & _ & _ & Hl & _). exfalso. rewrite E, lenN_app in Hend. lia. }
  destruct (compute_gap c Hc) as (A & B & C).
  destruct (rec_spec c Hc Hb) as [u E Hn|Hn E|hdr vs on Hn E E2|hdr vs on ps c' E E2 Hs Hrec Hv Hcb Hc' Hne].
  - pose proof (B u E) as K. split.
    + intros _. unfold bind at 1, lift at 1 in EB. rewrite E in K, EB. subst B0. exact (bad_read_undef _ _ _ K).
    + intros _. left. apply gaps_here; assumption.
  - split.
    + intros G. apply gaps_none in G; [|assumption..]. rewrite E in G. destruct G; discriminate.
    + unfold bind at 1, lift at 1 in EB. rewrite E in EB. subst B0. nope.
  - split.
    + intros G. apply gaps_none in G; [|assumption..]. rewrite E in G. destruct G; discriminate.
    + unfold bind at 1, lift at 1 in EB. rewrite E in EB. unfold bind at 1, lift at 1 in EB. rewrite E2 in EB. subst B0. nope.
  - assert (Vvs : valid_cur (vs, on)).
    { pose proof (read_header_spec 5 [] c Hc eq_refl) as H. fold (compute_record_size c) in H. rewrite E in H. inversion H; subst. assumption. }
    assert (Gc : forall n, cur_gap c' n <-> cur_gap c (lenN (framed (iov_concat ps)) + n)).
    { intros n. rewrite (isolate_gap _ _ _ _ _ Vvs E2 n), (C _ _ (header_payload_size hdr + n) E), Hs.
      unfold framed. rewrite lenN_app, lenN_tls_header. replace (5 + (lenN (iov_concat ps) + n)) with (5 + lenN (iov_concat ps) + n) by lia. reflexivity. }
    destruct Hrec as [Eh Hps].
    assert (Hcf : cur_bytes c = framed (iov_concat ps) ++ cur_bytes c') by (rewrite Hcb, Eh; unfold framed; rewrite <- app_assoc; reflexivity).
    unfold bind at 1, lift at 1 in EB. rewrite E in EB. unfold bind at 1, lift at 1 in EB. rewrite E2, Hs in EB. unfold fp_alloc in EB.
    destruct (HA (fp_next f) (lenN (iov_concat ps))) as (buf & Ea & La). rewrite Ea in EB. cbn [fp_crypt] in EB.
    rewrite Hcb in Hb, Hsz, Hfuel. rewrite !lenN_app in Hsz, Hfuel.
    destruct (bytes_ok_app _ _ Hb) as [Hb1 Hb2]. destruct (bytes_ok_app _ _ Hb2) as [Hb3 Hb4].
    assert (Hop : cop_ok (CUnprotect hdr ps buf)).
    { cbn [cop_ok]. split; [exact Hb1|]. split; [exact Hv|]. split; [exact Hb3|]. rewrite (sum_lens_concat ps Hv). lia. }
    pose proof (cstep_weak P lib a (fp_crypt f) dout (CUnprotect hdr ps buf) [] HP W Hop) as Hw.
    destruct Hop as (O1 & O2 & O3 & O4).
    pose proof (recv_ok P lib (fp_crypt f) tx r hdr ps buf [] HP Hr O1 O2 O3 O4) as Hrecv.
    cbn [cstep] in Hw. unfold bind at 1 in EB.
    (* what the reference says of this record if it is accepted *)
    assert (Hacc : gaps P c r -> exists n out r1, recv P False r hdr (iov_concat ps) buf S_OK n out r1 /\ r_bad r1 = false /\ gaps P c' r1).
    { intros (ps0 & rest & r' & Eq & Ha & Hb' & Hl & i & H1 & H2 & H3). destruct Ha as [r|r p b n out r1 ps0 r' _ Hp Lb Hrv Ha].
      - exfalso. cbn [map concat app] in Eq. assert (K : bad_read (compute_record_size c)) by (apply A; exists i; rewrite Eq; auto).
        rewrite E in K. destruct K; discriminate.
      - cbn [map concat] in Eq, H3. rewrite Hcf, <- app_assoc in Eq. apply framed_inj in Eq; [|assumption..]. destruct Eq as [Ep Er]. subst p.
        destruct (recv_buf P r _ _ b buf _ _ _ HP ltac:(congruence) Hrv) as (o2 & Hrv2). rewrite <- Eh in Hrv2.
        assert (Hb1' : r_bad r1 = false) by (destruct Ha; assumption).
        exists n, o2, r1. split; [exact Hrv2|]. split; [exact Hb1'|]. exists ps0, rest, r'. split; [exact Er|]. split; [exact Ha|]. split; [exact Hb'|]. split; [exact Hl|].
        exists i. split; [exact H1|]. split; [exact H2|]. apply Gc. rewrite lenN_app in H3. rewrite N.add_assoc. exact H3. }
    destruct (crypt_unprotect P lib (fp_crypt f) (IoBuf hdr) ps (IoBuf buf) []) as [[[[x1 [s n]] out] fs1]|u|] eqn:Eu.
    3: contradiction.
    2: { cbn [obind safe] in Hw. subst u. subst B0. split; [|nope]. intros G. exfalso.
         destruct (Hacc G) as (n & out & r1 & Q1 & Q2 & _). destruct Hrecv as (_ & _ & c0 & pad & Q3 & Q4). exact (recv_fatal _ _ _ _ _ _ _ _ _ _ HP Q1 Q2 Q3 Q4). }
    cbn [obind safe tx_step] in Hw. destruct Hw as (W1 & _).
    assert (fs1 = []) as -> by (eapply calm_unprotect; exact Eu).
    destruct Hrecv as (r1 & Hrv & Hrel & _).
    assert (Hrv' : recv P False r hdr (iov_concat ps) buf s n (iov_data out) r1).
    { eapply recv_mono; [|exact Hrv]. intros K. apply K. reflexivity. }
    assert (Dec : s = S_OK \/ s <> S_OK) by (destruct s; (left; reflexivity) || (right; discriminate)).
    destruct Dec as [->|Hst].
    2: { split.
         - intros G. exfalso. destruct (Hacc G) as (n2 & o2 & r2 & Q1 & _). apply Hst.
           exact (proj1 (recv_fun P False r hdr _ buf buf _ _ _ _ _ _ _ _ HP (fun K => K) eq_refl Hrv' Q1)).
         - subst B0. destruct s; try (exfalso; apply Hst; reflexivity); nope. }
    assert (L5 : lenN hdr = 5) by (rewrite Eh; apply lenN_tls_header).
    pose proof (recv_ok_size _ _ _ _ _ _ _ _ _ Hrv') as L22.
    unfold kTlsRecordHeaderSize in EB. rewrite sub64_small in EB by (rewrite Hcb, !lenN_app; lia).
    replace (lenN (cur_bytes c) - (5 + lenN (iov_concat ps))) with (lenN (cur_bytes c')) in EB by (rewrite Hcb, !lenN_app; lia).
    set (f0 := {| fp_crypt := fp_crypt f; fp_max := fp_max f; fp_next := fp_next f + 1;
       fp_events := fp_events f ++ [EvAlloc (fp_next f) (lenN (iov_concat ps))] |}).
    assert (Ad : forall ps0 r', accepted P r1 ps0 r' -> accepted P r (iov_concat ps :: ps0) r').
    { intros ps0 r' K. refine (AdCons P r _ buf n (iov_data out) r1 ps0 r' Hbad Hps La _ K). rewrite <- Eh. exact Hrv'. }
    destruct (r_bad r1) eqn:Ebad.
    { split.
      - intros G. exfalso. destruct (Hacc G) as (n2 & o2 & r2 & Q1 & Q2 & _).
        destruct (recv_fun P False r hdr _ buf buf _ _ _ _ _ _ _ _ HP (fun K => K) eq_refl Hrv' Q1) as (_ & _ & -> & _). congruence.
      - intros _. right. exists [iov_concat ps], (cur_bytes c'), r1. split; [cbn [map concat]; rewrite app_nil_r; exact Hcf|].
        split; [apply Ad; constructor|exact Ebad]. }
    destruct (Hrel eq_refl) as (Hrel1 & _).
    destruct (IH P lib al a (with_crypt f0 x1) c' dout (acc ++ [{| fb_id := fp_next f; fb_mem := out; fb_len := n |}]) tx r1
      HP HA W1 Hc' Hb4 ltac:(lia) ltac:(lia) Hrel1 B0 EB) as (I1 & I2).
    split.
    + intros G. destruct (Hacc G) as (n2 & o2 & r2 & Q1 & _ & Q3).
      destruct (recv_fun P False r hdr _ buf buf _ _ _ _ _ _ _ _ HP (fun K => K) eq_refl Hrv' Q1) as (_ & _ & <- & _). exact (I1 Q3).
    + intros K. destruct (I2 K) as [(ps0 & rest & r' & Eq & Ha & Hb' & Hl & i & H1 & H2 & H3)|(ps0 & rest & r' & Eq & Ha & Hb')].
      * left. exists (iov_concat ps :: ps0), rest, r'. cbn [map concat]. split; [rewrite Hcf, Eq, app_assoc; reflexivity|]. split; [apply Ad; exact Ha|].
        split; [exact Hb'|]. split; [exact Hl|]. exists i. split; [exact H1|]. split; [exact H2|]. apply Gc in H3. rewrite lenN_app, <- N.add_assoc. exact H3.
      * right. exists (iov_concat ps :: ps0), rest, r'. cbn [map concat]. split; [rewrite Hcf, Eq, app_assoc; reflexivity|]. split; [apply Ad; exact Ha|exact Hb'].
Qed.

Lemma G27 : forall P lib al a ops rs f s, protector P lib al a ops rs f ->
  no_failures ops ->
  ref_run P (ref_start a) ops (map answer_of rs) s -> r_bad (f_rx s) = false ->
  forall input, fop_ok (FUnprotect input) ->
  (forall ps rest r, iov_concat input = concat (map framed ps) ++ rest -> accepted P (f_rx s) ps r -> r_bad r = false ->
     22 <= lenN rest -> empty_in_header input (lenN (concat (map framed ps))) rest ->
     bad_read (fstep P lib al f (FUnprotect input) [])) /\
  (bad_read (fstep P lib al f (FUnprotect input) []) ->
     exists ps rest r, iov_concat input = concat (map framed ps) ++ rest /\ accepted P (f_rx s) ps r /\
       (r_bad r = true \/ (22 <= lenN rest /\ empty_in_header input (lenN (concat (map framed ps))) rest))).
Proof.
  intros P lib al a ops rs f s Hp Hn HR Hb input Hop.
  pose proof (ref_known _ _ _ _ _ _ _ _ Hp Hn HR Hb) as Rel. pose proof Hp as (HP & HA & _). pose proof Hop as (Vi & Bi & Si).
  destruct (protector_winv _ _ _ _ _ _ _ Hp) as (d & din & W & Ro & Ri).
  destruct (cur_start input) as (C1 & C2 & C3).
  assert (Hsb : sum_lens input = lenN (cur_bytes (input, 0))) by (rewrite C3; apply sum_lens_concat; exact Vi).
  assert (Ef : bad_read (fstep P lib al f (FUnprotect input) []) <-> bad_read (fp_unprotect P lib al f input [])).
  { cbn [fstep]. destruct (fp_unprotect P lib al f input []) as [[[[? ?] ?] ?]|u|]; cbn [obind];
      split; try (intros [K|K]; discriminate); apply bad_read_undef. }
  unfold fp_unprotect in Ef. rewrite total_len_sum in Ef by lia. unfold bind, lift in Ef. rewrite (record_overhead_spec _ _ _ Ri) in Ef.
  destruct (N.ltb_spec (sum_lens input) 22) as [H|H].
  { split; [|intros K; apply Ef in K; destruct K as [K|K]; discriminate]. intros ps rest r E _ _ Hl _. exfalso. rewrite Hsb, C3, E, lenN_app in H. lia. }
  destruct (loop_gap (S (N.to_nat (sum_lens input / 22))) P lib al (c_args a) f (input, 0) d [] (f_tx s) (f_rx s) HP HA W
    (start_valid _ Vi ltac:(lia)) ltac:(rewrite C3; exact Bi) ltac:(lia) ltac:(rewrite <- Hsb; lia) Rel _ eq_refl) as (I1 & I2).
  rewrite <- Hsb in I1, I2. unfold gaps, spoilt in I1, I2. rewrite C3 in I1, I2. split.
  - intros ps rest r E Ha Hr Hl (i & H1 & H2 & H3). apply Ef. apply I1. exists ps, rest, r. repeat (split; [assumption|]). exists i. split; [exact H1|]. split; [exact H2|].
    apply gap_start. exact H3.
  - intros K. destruct (I2 (proj1 Ef K)) as [(ps & rest & r & E & Ha & Hr & Hl & i & H1 & H2 & H3)|(ps & rest & r & E & Ha & Hr)].
    + exists ps, rest, r. split; [exact E|]. split; [exact Ha|]. right. split; [exact Hl|]. exists i. split; [exact H1|]. split; [exact H2|]. apply gap_start. exact H3.
    + exists ps, rest, r. auto.
Qed.
