(* Proofs about FrameProt.v: reading records from iovecs and the Unprotect loop. *)
From Coq Require Import List NArith ZArith Bool Lia ZifyBool ZifyNat ZifyN.
From Verif Require Import Base BaseProofs Aead SpecAead AeadProofs Hkdf HalfConn
  SpecTls HkdfProofs HalfProofs Options HsHandler SpecHs HsProofs Crypter SpecRecord CrypterProofs
  SpecRx CrypterRun CrypterRunProofs FrameProt SpecFrame FrameRun FrameProofs Calm.
Import ListNotations.
Local Open Scope N_scope.
Ltac Zify.zify_post_hook ::= Z.div_mod_to_equations.

Definition valid_cur (c : cursor) : Prop := Forall iov_valid (fst c) /\ cur_ok c /\ lens_ok (fst c).

Lemma cur_len_bytes : forall c, Forall iov_valid (fst c) -> cur_ok c -> cur_len c = lenN (cur_bytes c).
Proof.
  intros [[|v r] on] H Hc; [reflexivity|]. cbn [fst] in H. inversion H; subst.
  rewrite cur_len_cons, cur_bytes_cons, lenN_app, lenN_dropN, <- valid_len, <- sum_lens_concat by assumption. reflexivity.
Qed.

(* ---- the header ---- *)
Definition hdr_byte_ok (i : nat) (b : N) : bool :=
  match i with O => b =? 23 | 1%nat | 2%nat => b =? 3 | _ => true end.

Inductive hdr_res (k : nat) (hdr : bytes) (c : cursor) : outcome (code + bytes * cursor) -> Prop :=
| HrUndef : forall u, ~ Forall nonempty_iov (fst c) -> hdr_res k hdr c (Undef u)
| HrBad : (lenN (cur_bytes c) < N.of_nat k \/
           exists i b, (i < k)%nat /\ nth_error (cur_bytes c) i = Some b /\ hdr_byte_ok (length hdr + i) b = false) ->
    hdr_res k hdr c (Done (inl kFailedPrecondition))
| HrOk : forall c', valid_cur c' -> N.of_nat k <= lenN (cur_bytes c) ->
    (forall i b, (i < k)%nat -> nth_error (cur_bytes c) i = Some b -> hdr_byte_ok (length hdr + i) b = true) ->
    cur_bytes c' = dropN (N.of_nat k) (cur_bytes c) ->
    (Forall nonempty_iov (fst c) -> Forall nonempty_iov (fst c')) ->
    hdr_res k hdr c (Done (inr (hdr ++ takeN (N.of_nat k) (cur_bytes c), c'))).

Lemma nth_dropN : forall A n (l : list A), nth_error l (N.to_nat n) = nth_error (dropN n l) 0.
Proof.
  intros A n. rewrite <- (N2Nat.id n). generalize (N.to_nat n) as k. intros k l. rewrite Nat2N.id. unfold dropN.
  rewrite Nat2N.id. revert l. induction k as [|k IH]; intros [|x l]; cbn [nth_error skipn]; try reflexivity.
  apply IH.
Qed.

Lemma read_byte_spec : forall c, valid_cur c ->
  (exists u, read_byte c = Undef u /\ ~ Forall nonempty_iov (fst c)) \/
  (read_byte c = Done None /\ cur_bytes c = []) \/
  (exists b r c', read_byte c = Done (Some (b, c')) /\ cur_bytes c = b :: r /\ cur_bytes c' = r /\ valid_cur c' /\
     (Forall nonempty_iov (fst c) -> Forall nonempty_iov (fst c'))).
Proof.
  intros [[|v r] on] (Hv & Hc & Hl); cbn [fst] in *.
  - right; left. split; reflexivity.
  - pose proof (Forall_inv Hv) as Vv. pose proof (Forall_inv_tail Hv) as Vr.
    pose proof (Forall_inv_tail Hl) as Lr.
    cbn [read_byte]. destruct v as [d|n]; cbn [iov_read].
    + rewrite nth_dropN. destruct (dropN on d) as [|b rest] eqn:Ed; cbn [nth_error obind].
      * left. exists UbOutOfBounds. split; [reflexivity|]. intros K. apply Forall_inv in K.
        destruct K as (d' & E & Hne). inversion E; subst d'.
        assert (L : lenN (dropN on d) = 0) by (rewrite Ed; reflexivity). rewrite lenN_dropN in L.
        destruct Hc as [->|(d' & E' & H')]; [|inversion E'; subst; lia]. apply Hne. apply lenN_0. lia.
      * right; right. exists b, (rest ++ iov_concat r).
        assert (L : lenN (dropN on d) = 1 + lenN rest) by (rewrite Ed, lenN_cons; reflexivity).
        rewrite lenN_dropN in L.
        assert (Er : dropN (on + 1) d = rest).
        { rewrite <- (dropN_dropN _ 1 on) || rewrite <- dropN_dropN. rewrite Ed. rewrite dropN_cons by lia. apply dropN_0. }
        cbn [iov_len]. eexists. split; [reflexivity|]. split; [rewrite cur_bytes_cons; cbn [iov_data]; rewrite Ed; reflexivity|].
        destruct (N.leb_spec (lenN d) (on + 1)) as [H|H].
        -- destruct (cur_start r) as (C1 & C2 & C3). rewrite C3.
           assert (rest = []) as -> by (apply lenN_0; lia). split; [reflexivity|].
           split; [split; [exact Vr|split; [exact C1|exact Lr]]|]. intros K. apply Forall_inv_tail in K. exact K.
        -- split; [rewrite cur_bytes_cons; cbn [iov_data]; rewrite Er; reflexivity|].
           split; [split; [exact Hv|split; [|exact Hl]]|auto]. right. exists d. split; [reflexivity|exact H].
    + left. exists UbNullDeref. split; [reflexivity|]. intros K. apply Forall_inv in K.
      destruct K as (d' & E & _). discriminate.
Qed.

Lemma read_header_spec : forall k hdr c, valid_cur c -> (length hdr + k = 5)%nat -> hdr_res k hdr c (read_header k hdr c).
Proof.
  induction k as [|k IH]; intros hdr c Hc Hlen; cbn [read_header].
  - rewrite <- (app_nil_r hdr) at 2. change (@nil N) with (takeN (N.of_nat 0) (cur_bytes c)).
    apply HrOk; [exact Hc|lia|intros; lia|symmetry; apply dropN_0|auto].
  - destruct (read_byte_spec c Hc) as [(u & E & K)|[(E & K)|(b & r & c' & E & E1 & E2 & V & Ne)]]; rewrite E; cbn [obind].
    + apply HrUndef. exact K.
    + apply HrBad. left. rewrite K, lenN_nil. lia.
    + set (bad := match length hdr with O => negb (b =? kTls12ApplicationData)
                   | 1%nat | 2%nat => negb (b =? kTls12WireVersion) | _ => false end).
      assert (Hbad : bad = negb (hdr_byte_ok (length hdr) b)).
      { unfold bad, hdr_byte_ok. destruct (length hdr) as [|[|[|m]]]; reflexivity. }
      destruct bad.
      * apply HrBad. right. exists 0%nat, b. split; [lia|]. rewrite E1, Nat.add_0_r. split; [reflexivity|].
        destruct (hdr_byte_ok (length hdr) b); [discriminate|reflexivity].
      * assert (Hb : hdr_byte_ok (length hdr) b = true) by (destruct (hdr_byte_ok (length hdr) b); [reflexivity|discriminate]).
        assert (Hl' : (length (hdr ++ [b]) = S (length hdr))%nat) by (rewrite app_length; cbn; lia).
        destruct (IH (hdr ++ [b]) c' V ltac:(lia)) as [u K|K|c2 V2 L2 B2 D2 N2].
        -- apply HrUndef. tauto.
        -- apply HrBad. rewrite E1, lenN_cons. destruct K as [K|(i & b' & K1 & K2 & K3)]; [left; rewrite E2 in K; lia|].
           right. exists (S i), b'. rewrite E2 in K2. rewrite Hl' in K3. split; [lia|]. split; [exact K2|].
           replace (length hdr + S i)%nat with (S (length hdr) + i)%nat by lia. exact K3.
        -- replace (N.of_nat (S k)) with (1 + N.of_nat k) by lia.
           replace ((hdr ++ [b]) ++ takeN (N.of_nat k) (cur_bytes c')) with (hdr ++ takeN (N.of_nat (S k)) (cur_bytes c)).
           2: { rewrite E1, E2, takeN_cons by lia. replace (N.of_nat (S k) - 1) with (N.of_nat k) by lia. rewrite <- app_assoc. reflexivity. }
           rewrite E2 in *. apply HrOk; [exact V2|rewrite E1, lenN_cons; lia| | |auto].
           ++ intros i b' Hi Hn. rewrite E1 in Hn. destruct i as [|i].
              ** cbn in Hn. inversion Hn; subst. rewrite Nat.add_0_r. exact Hb.
              ** cbn in Hn. replace (length hdr + S i)%nat with (length (hdr ++ [b]) + i)%nat by lia. apply B2; [lia|exact Hn].
           ++ rewrite D2, E1, dropN_cons by lia. f_equal. lia.
Qed.

(* ---- the payload ---- *)
Lemma isolate_spec : forall vs on need, valid_cur (vs, on) ->
  (need <= lenN (cur_bytes (vs, on)) /\ exists ps vs' on', isolate_payload vs on need = Done (inr (ps, (vs', on'))) /\
     Forall iov_valid ps /\ iov_concat ps = takeN need (cur_bytes (vs, on)) /\
     cur_bytes (vs', on') = dropN need (cur_bytes (vs, on)) /\ valid_cur (vs', on') /\
     (Forall nonempty_iov vs -> Forall nonempty_iov vs')) \/
  (lenN (cur_bytes (vs, on)) < need /\ isolate_payload vs on need = Done (inl kFailedPrecondition)).
Proof.
  induction vs as [|v vs IH]; intros on need (Hv & Hc & Hl); cbn [fst] in *.
  - cbn [isolate_payload]. destruct (N.eqb_spec need 0) as [->|Hne].
    + left. split; [lia|]. exists [], [], on. split; [reflexivity|]. split; [constructor|]. split; [reflexivity|].
      split; [reflexivity|]. split; [repeat split; auto|auto].
    + right. cbn. split; [lia|reflexivity].
  - cbn [isolate_payload]. destruct (N.eqb_spec need 0) as [->|Hne].
    { left. split; [lia|]. exists [], (v :: vs), on. split; [reflexivity|]. split; [constructor|]. split; [rewrite takeN_0; reflexivity|].
      split; [rewrite dropN_0; reflexivity|]. split; [repeat split; auto|auto]. }
    pose proof (Forall_inv Hv) as Vv. pose proof (Forall_inv_tail Hv) as Vr.
    pose proof (Forall_inv Hl) as Lv. pose proof (Forall_inv_tail Hl) as Lr. cbn beta in Lv.
    assert (Hon : on <= iov_len v). { destruct Hc as [->|(d & -> & H)]; cbn [iov_len]; lia. }
    rewrite sub64_small by lia. set (k := N.min (iov_len v - on) need).
    destruct (slice_ok v on k Hc ltac:(lia)) as (p & Ep & Lp & V1 & V2 & V3 & V4). rewrite Ep. cbn [obind].
    specialize (V2 Vv). specialize (V3 Vv). rewrite cur_bytes_cons.
    destruct (N.eqb_spec (k + on) (iov_len v)) as [Hfull|Hpart].
    + assert (Ek : k = iov_len v - on) by lia.
      destruct (cur_start vs) as (C1 & C2 & C3).
      destruct (head_step v on k p Hc ltac:(lia) Vv V3 Ek) as [Q1 Q2]. rewrite Q1.
      assert (Hvc : valid_cur (vs, 0)) by (split; [exact Vr|split; [exact C1|exact Lr]]).
      destruct (IH 0 (need - k) Hvc) as [(Hle & ps & vs' & on' & E & A1 & A2 & A3 & A4 & A5)|(Hgt & E)]; rewrite E; cbn [obind].
      * left. rewrite C3 in *. rewrite lenN_app, Q2. split; [lia|]. exists (p :: ps), vs', on'. split; [reflexivity|].
        split; [constructor; assumption|]. rewrite iov_concat_cons, A2, A3, takeN_app_ge, dropN_app_ge, Q2 by lia.
        split; [reflexivity|]. split; [reflexivity|]. split; [exact A4|]. intros K. apply A5. apply Forall_inv_tail in K. exact K.
      * right. rewrite C3 in *. rewrite lenN_app, Q2. split; [lia|reflexivity].
    + left. assert (Ek : k = need) by lia. rewrite lenN_app, lenN_dropN, <- (valid_len v Vv). split; [lia|].
      destruct v as [d|n]; [|cbn [iov_valid iov_len] in *; lia]. cbn [iov_len iov_data] in *.
      exists [p], (IoBuf d :: vs), (on + k). split; [reflexivity|]. split; [constructor; [exact V2|constructor]|].
      assert (Ld : need <= lenN (dropN on d)) by (rewrite lenN_dropN; lia).
      rewrite takeN_app_le, dropN_app_le by exact Ld.
      rewrite iov_concat_cons, V3. cbn [iov_concat flat_map]. rewrite app_nil_r, <- Ek, cur_bytes_cons. cbn [iov_data].
      split; [reflexivity|]. split; [rewrite dropN_dropN; reflexivity|].
      split; [split; [exact Hv|split; [|exact Hl]]|auto]. right. exists d. split; [reflexivity|lia].
Qed.

(* ---- records ---- *)
Lemma tls_header_shape : forall n, tls_header n = [23; 3; 3; n / 256 mod 256; n mod 256].
Proof. reflexivity. Qed.

Lemma starts_facts : forall data, starts_with_record data -> exists a b rest,
  data = 23 :: 3 :: 3 :: a :: b :: rest /\ a * 256 + b <= lenN rest.
Proof.
  intros data (hdr & p & rest & -> & -> & Hp). rewrite tls_header_shape. cbn [app].
  eexists _, _, _. split; [reflexivity|]. rewrite lenN_app. lia.
Qed.

Inductive rec_res (c : cursor) : Prop :=
| RsUndef : forall u, compute_record_size c = Undef u -> ~ Forall nonempty_iov (fst c) -> rec_res c
| RsHdr : ~ starts_with_record (cur_bytes c) -> compute_record_size c = Done (inl kFailedPrecondition) -> rec_res c
| RsShort : forall hdr vs on, ~ starts_with_record (cur_bytes c) -> compute_record_size c = Done (inr (hdr, (vs, on))) ->
    isolate_payload vs on (header_payload_size hdr) = Done (inl kFailedPrecondition) -> rec_res c
| RsOk : forall hdr vs on ps c', compute_record_size c = Done (inr (hdr, (vs, on))) ->
    isolate_payload vs on (header_payload_size hdr) = Done (inr (ps, c')) ->
    header_payload_size hdr = lenN (iov_concat ps) -> is_record hdr (iov_concat ps) -> Forall iov_valid ps ->
    cur_bytes c = hdr ++ iov_concat ps ++ cur_bytes c' -> valid_cur c' ->
    (Forall nonempty_iov (fst c) -> Forall nonempty_iov (fst c')) -> rec_res c.

Lemma rec_spec : forall c, valid_cur c -> bytes_ok (cur_bytes c) -> rec_res c.
Proof.
  intros c Hc Hb. pose proof (read_header_spec 5 [] c Hc eq_refl) as H.
  fold (compute_record_size c) in H.
  remember (compute_record_size c) as o eqn:Eo. destruct H as [u Hu|Hbad|c1 V L B D Ne]; symmetry in Eo.
  - eapply RsUndef; eauto.
  - apply RsHdr; [|exact Eo]. intros K. destruct (starts_facts _ K) as (a & b & rest & E & Hl).
    rewrite E in Hbad. destruct Hbad as [Hbad|(i & x & Hi & Hn & Hx)]; [rewrite !lenN_cons in Hbad; lia|].
    destruct i as [|[|[|[|[|i]]]]]; cbn in Hn; inversion Hn; subst; cbn in Hx; try discriminate; lia.
  - destruct (cur_bytes c) as [|b0 [|b1 [|b2 [|b3 [|b4 rest]]]]] eqn:Ec; try (exfalso; cbn in L; lia).
    change (takeN (N.of_nat 5) (b0 :: b1 :: b2 :: b3 :: b4 :: rest)) with [b0; b1; b2; b3; b4] in Eo.
    change (dropN (N.of_nat 5) (b0 :: b1 :: b2 :: b3 :: b4 :: rest)) with rest in D. cbn [app] in Eo.
    assert (b0 = 23) by (specialize (B 0%nat b0 ltac:(lia) eq_refl); cbn in B; lia).
    assert (b1 = 3) by (specialize (B 1%nat b1 ltac:(lia) eq_refl); cbn in B; lia).
    assert (b2 = 3) by (specialize (B 2%nat b2 ltac:(lia) eq_refl); cbn in B; lia).
    subst b0 b1 b2. unfold bytes_ok in Hb.
    do 3 apply Forall_inv_tail in Hb. pose proof (Forall_inv Hb) as H3. apply Forall_inv_tail in Hb.
    pose proof (Forall_inv Hb) as H4. cbn beta in H3, H4.
    destruct c1 as [vs on]. destruct (isolate_spec vs on (b3 * 256 + b4) V) as
      [(Hle & ps & vs' & on' & E & A1 & A2 & A3 & A4 & A5)|(Hgt & E)].
    + assert (Ln : lenN (iov_concat ps) = b3 * 256 + b4) by (rewrite A2, lenN_takeN; lia).
      eapply RsOk; [exact Eo|exact E|symmetry; exact Ln| |exact A1| |exact A4|auto].
      * unfold byte_ok in *. split; [|lia]. rewrite tls_header_shape, Ln. repeat f_equal; lia.
      * rewrite Ec. cbn [app]. do 5 f_equal. rewrite A2, A3, D. symmetry. apply takeN_dropN.
    + eapply RsShort; [|exact Eo|exact E]. rewrite Ec. intros K.
      destruct (starts_facts _ K) as (a & b & r' & E' & Hl). rewrite D in Hgt. clear D. inversion E'; subst. lia.
Qed.

(* ---- the Unprotect loop ---- *)
Lemma rec_run_crun : forall P lib al x id data ops rs bs e x',
  rec_run P lib al x id data ops rs bs e x' ->
  match e with EndUndef u => crun P lib x ops = Undef u | _ => crun P lib x ops = Done (x', rs) end.
Proof.
  intros P lib al x id data ops rs bs e x' H. induction H; try reflexivity.
  - cbn [crun]. rewrite H1. reflexivity.
  - cbn [crun]. rewrite H1. reflexivity.
  - destruct e; try (eapply crun_cons; eassumption). cbn [crun]. rewrite H1. cbn [obind]. rewrite IHrec_run. reflexivity.
Qed.

Lemma ok_well_formed : forall P lib x din hdr payload buf fs x' n out,
  prims_ok P -> half_rel P (cx_in x) din -> cop_ok (CUnprotect hdr payload buf) ->
  cstep P lib x (CUnprotect hdr payload buf) fs = Done (x', CUnprotected S_OK n out) ->
  well_formed hdr (sum_lens payload).
Proof.
  intros P lib x din hdr payload buf fs x' n out HP Ri (B1 & B2 & B3 & B4) E. cbn [cstep] in E.
  destruct (crypt_unprotect_spec P lib x din hdr payload buf fs HP Ri B1 B2 B4) as (K1 & K2 & _).
  destruct (cx_close x) eqn:Ec; [rewrite K1 in E by reflexivity; discriminate|].
  unfold well_formed in *. destruct (list_eq_dec N.eq_dec hdr (tls_header (sum_lens payload))) as [E1|E1].
  - destruct (N.le_gt_cases 17 (sum_lens payload)); [destruct (N.le_gt_cases (sum_lens payload) (16384 + 17))|]; auto.
    + rewrite K2 in E by (auto; lia). cbn [obind] in E. destruct (_ <? _) in E; discriminate.
    + rewrite K2 in E by (auto; lia). cbn [obind] in E. destruct (_ <? _) in E; discriminate.
  - rewrite K2 in E by (auto; intros [K _]; contradiction). cbn [obind] in E. destruct (_ <? _) in E; discriminate.
Qed.

Lemma fold_destroy : forall (acc : list fbuf) f,
  fold_left (fun f b => fp_destroy f (fb_id b)) acc f =
  {| fp_crypt := fp_crypt f; fp_max := fp_max f; fp_next := fp_next f;
     fp_events := fp_events f ++ map (fun b => EvDestroy (fb_id b)) acc |}.
Proof.
  induction acc as [|b acc IH]; intros f; cbn [fold_left map].
  - rewrite app_nil_r. destruct f; reflexivity.
  - rewrite IH. cbn [fp_destroy fp_crypt fp_max fp_next fp_events]. rewrite <- app_assoc. reflexivity.
Qed.

Definition loop_end (f : fprot) (acc : list fbuf) (ops : list (cop * faults)) (opened : list fbuf) (e : ending)
  (f' : fprot) (st : code) (bufs : list fbuf) : Prop :=
  fp_max f' = fp_max f /\ fp_next f' = fp_next f + lenN ops /\
  match e with
  | EndAll _ => st = kOk /\ bufs = acc ++ opened /\ fp_events f' = fp_events f ++ op_allocs (fp_next f) ops
  | EndNoRecord _ => st = kFailedPrecondition /\ bufs = [] /\ fp_events f' = fp_events f ++ op_allocs (fp_next f) ops
  | EndFailed s => st = fp_code s /\ bufs = [] /\
      fp_events f' = fp_events f ++ op_allocs (fp_next f) ops ++
        EvDestroy (fp_next f + lenN opened) :: map (fun b => EvDestroy (fb_id b)) (acc ++ opened)
  | EndUndef _ => False
  end.

Definition no_faults (ops : list (cop * faults)) : Prop := Forall (fun p => snd p = []) ops.

Lemma bytes_ok_app : forall a b, bytes_ok (a ++ b) -> bytes_ok a /\ bytes_ok b.
Proof. intros a b H. apply Forall_app in H. exact H. Qed.

Lemma unprotect_loop_spec : forall fuel P lib al a f c dout acc fs,
  prims_ok P -> alloc_ok al -> cx_winv P a (fp_crypt f) dout -> valid_cur c -> bytes_ok (cur_bytes c) ->
  lenN (cur_bytes c) + 5 < two64 -> lenN (cur_bytes c) < 22 * N.of_nat fuel ->
  match unprotect_loop fuel P lib al f c (lenN (cur_bytes c)) acc fs with
  | Done ((f', st, bufs), fs') =>
    exists ops rs opened e, rec_run P lib al (fp_crypt f) (fp_next f) (cur_bytes c) ops rs opened e (fp_crypt f') /\
      cops_ok ops /\ (fs = [] -> no_faults ops /\ fs' = []) /\ loop_end f acc ops opened e f' st bufs
  | Undef u => ~ Forall nonempty_iov (fst c) \/
      exists ops rs opened x', rec_run P lib al (fp_crypt f) (fp_next f) (cur_bytes c) ops rs opened (EndUndef u) x' /\
        cops_ok ops /\ (fs = [] -> no_faults ops)
  | NoFuel => False
  end.
Proof.
  induction fuel as [|fuel IH]; intros P lib al a f c dout acc fs HP HA W Hc Hb Hsz Hfuel; [lia|].
  destruct (cw_in _ _ _ _ W) as (din & Ri & _).
  cbn [unprotect_loop]. unfold bind at 1, lift at 1. rewrite (record_overhead_spec _ _ _ Ri).
  destruct (N.ltb_spec (lenN (cur_bytes c)) 22) as [Hend|Hgo].
  { cbn [ret]. exists [], [], [], (EndAll (cur_bytes c)). split; [apply RecEnd; exact Hend|]. split; [constructor|].
    split; [intros ->; split; [constructor|reflexivity]|].
    repeat split; [rewrite lenN_nil; lia|rewrite app_nil_r; reflexivity|cbn [op_allocs]; rewrite app_nil_r; reflexivity]. }
  assert (Hnone : ~ starts_with_record (cur_bytes c) ->
    exists ops rs opened e, rec_run P lib al (fp_crypt f) (fp_next f) (cur_bytes c) ops rs opened e (fp_crypt f) /\
      cops_ok ops /\ (fs = [] -> no_faults ops /\ fs = []) /\ loop_end f acc ops opened e f kFailedPrecondition []).
  { intros Hn. exists [], [], [], (EndNoRecord (cur_bytes c)). split; [apply RecNone; assumption|]. split; [constructor|].
    split; [intros K; split; [constructor|exact K]|].
    repeat split; [rewrite lenN_nil; lia|cbn [op_allocs]; rewrite app_nil_r; reflexivity]. }
  destruct (rec_spec c Hc Hb) as [u E Hn|Hn E|hdr vs on Hn E E2|hdr vs on ps c' E E2 Hs Hr Hv Hcb Hc' Hne];
    unfold bind at 1, lift at 1; rewrite E.
  - left. exact Hn.
  - cbn [ret]. exact (Hnone Hn).
  - unfold bind at 1, lift at 1. rewrite E2. cbn [ret]. exact (Hnone Hn).
  - unfold bind at 1, lift at 1. rewrite E2, Hs. unfold fp_alloc.
    destruct (HA (fp_next f) (lenN (iov_concat ps))) as (buf & Ea & La). rewrite Ea. cbn [fp_crypt].
    rewrite Hcb in Hb, Hsz, Hfuel. rewrite !lenN_app in Hsz, Hfuel.
    destruct (bytes_ok_app _ _ Hb) as [Hb1 Hb2]. destruct (bytes_ok_app _ _ Hb2) as [Hb3 Hb4].
    assert (Hop : cop_ok (CUnprotect hdr ps buf)).
    { cbn [cop_ok]. split; [exact Hb1|]. split; [exact Hv|]. split; [exact Hb3|]. rewrite (sum_lens_concat ps Hv). lia. }
    pose proof (cstep_weak P lib a (fp_crypt f) dout (CUnprotect hdr ps buf) fs HP W Hop) as Hw.
    assert (Hstep : cstep P lib (fp_crypt f) (CUnprotect hdr ps buf) fs =
      obind (crypt_unprotect P lib (fp_crypt f) (IoBuf hdr) ps (IoBuf buf) fs)
        (fun '((x, (st, n), out), _) => Done (x, CUnprotected st n out))) by reflexivity.
    unfold bind at 1.
    destruct (crypt_unprotect P lib (fp_crypt f) (IoBuf hdr) ps (IoBuf buf) fs) as [[[[x1 [s n]] out] fs1]|u|] eqn:Eu.
    2: { right. exists [(CUnprotect hdr ps buf, fs)], [], [], (fp_crypt f).
         split; [rewrite Hcb; eapply RecUndef; eauto; rewrite <- Hcb; exact Hgo|].
         split; [constructor; [exact Hop|constructor]|]. intros K. constructor; [exact K|constructor]. }
    2: { cbn [obind] in Hstep. rewrite Hstep in Hw. exact Hw. }
    cbn [obind] in Hstep. rewrite Hstep in Hw. cbn [safe] in Hw. destruct Hw as (W1 & _).
    assert (Hfs : fs = [] -> fs1 = []) by (intros ->; eapply calm_unprotect; exact Eu).
    cbn [tx_step] in W1.
    set (f0 := {| fp_crypt := fp_crypt f; fp_max := fp_max f; fp_next := fp_next f + 1;
       fp_events := fp_events f ++ [EvAlloc (fp_next f) (lenN (iov_concat ps))] |}).
    assert (Dec : s = S_OK \/ s <> S_OK) by (destruct s; (left; reflexivity) || (right; discriminate)).
    destruct Dec as [->|Hst].
    + pose proof (ok_well_formed P lib (fp_crypt f) din hdr ps buf fs x1 n out HP Ri Hop Hstep) as [Hwf1 Hwf2].
      rewrite (sum_lens_concat ps Hv) in Hwf1, Hwf2.
      assert (L5 : lenN hdr = 5) by (rewrite Hwf1; apply lenN_tls_header).
      unfold kTlsRecordHeaderSize. rewrite sub64_small by (rewrite Hcb, !lenN_app; lia).
      replace (lenN (cur_bytes c) - (5 + lenN (iov_concat ps))) with (lenN (cur_bytes c'))
        by (rewrite Hcb, !lenN_app; lia).
      specialize (IH P lib al a (with_crypt f0 x1) c' dout (acc ++ [{| fb_id := fp_next f; fb_mem := out; fb_len := n |}])
        fs1 HP HA W1 Hc' Hb4 ltac:(lia) ltac:(lia)).
      destruct (unprotect_loop fuel P lib al (with_crypt f0 x1) c' (lenN (cur_bytes c'))
        (acc ++ [{| fb_id := fp_next f; fb_mem := out; fb_len := n |}]) fs1) as [[[[f' st] bufs] fs']|u|] eqn:El.
      3: exact IH.
      2: { destruct IH as [IH|(ops & rs & opened & x' & IH1 & IH2 & IH3)]; [left; tauto|]. right.
           exists ((CUnprotect hdr ps buf, fs) :: ops), (CUnprotected S_OK n out :: rs),
             ({| fb_id := fp_next f; fb_mem := out; fb_len := n |} :: opened), x'.
           split; [rewrite Hcb; eapply RecOk; eauto|]. split; [constructor; assumption|].
           intros K. constructor; [exact K|]. apply IH3. apply Hfs. exact K. }
      destruct IH as (ops & rs & opened & e & A1 & A2 & A3 & A4 & A5 & A6).
      cbn [with_crypt f0 fp_crypt fp_next fp_max fp_events] in *.
      exists ((CUnprotect hdr ps buf, fs) :: ops), (CUnprotected S_OK n out :: rs),
        ({| fb_id := fp_next f; fb_mem := out; fb_len := n |} :: opened), e.
      split; [rewrite Hcb; eapply RecOk; eauto|]. split; [constructor; assumption|].
      split; [intros K; destruct (A3 (Hfs K)) as [A31 A32]; split; [constructor; assumption|exact A32]|].
      split; [exact A4|]. split; [rewrite A5, lenN_cons; lia|].
      cbn [op_allocs]. destruct e.
      * destruct A6 as (B1 & B2 & B3). split; [exact B1|]. split; [rewrite B2, <- app_assoc; reflexivity|].
        rewrite B3, <- app_assoc. reflexivity.
      * destruct A6 as (B1 & B2 & B3). split; [exact B1|]. split; [exact B2|]. rewrite B3, <- app_assoc. reflexivity.
      * destruct A6 as (B1 & B2 & B3). split; [exact B1|]. split; [exact B2|]. rewrite B3, <- !app_assoc, lenN_cons.
        cbn [app]. replace (fp_next f + 1 + lenN opened) with (fp_next f + (1 + lenN opened)) by lia. reflexivity.
      * exact A6.
    + destruct s; try (exfalso; apply Hst; reflexivity); cbn [ret]; rewrite fold_destroy;
      cbn [with_crypt fp_destroy fp_crypt fp_next fp_max fp_events];
      (eexists [(CUnprotect hdr ps buf, fs)], _, [], (EndFailed _);
       split; [rewrite Hcb; eapply RecFail; [exact Hr|exact Ea|exact Hstep|discriminate|rewrite <- Hcb; exact Hgo]|];
       split; [apply Forall_cons; [exact Hop|apply Forall_nil]|];
       split; [intros K; split; [apply Forall_cons; [exact K|apply Forall_nil]|exact (Hfs K)]|];
       split; [reflexivity|]; split; [reflexivity|]; split; [reflexivity|]; split; [reflexivity|];
       unfold f0; cbn [op_allocs fp_events]; rewrite app_nil_r, <- !app_assoc, lenN_nil, N.add_0_r; reflexivity).
Qed.
