(* Proofs for C88. *)
From Coq Require Import List NArith ZArith Bool Lia ZifyBool ZifyNat ZifyN.
From Verif Require Import Base BaseProofs Aead SpecAead AeadProofs AeadRun Hkdf HalfConn
  SpecTls HkdfProofs HalfProofs Options HsHandler SpecHs HsProofs Crypter SpecRecord CrypterProofs
  SpecRx CrypterRun CrypterRunProofs
  FrameProt SpecFrame FrameRun FrameProofs FrameRx FrameSim FrameFinal LogExact BufFinal Debug DebugRun DebugProofs.
Import ListNotations.
Local Open Scope N_scope.

Lemma dres_agrees : forall T U A B (Q : A -> Prop) d (m : M A) (k : A -> B) fs, agrees T U Q d m ->
  dres (d fs) k = returned (obind (m fs) (fun '(a, _) => Done (k a))) \/
  (dres (d fs) k = Done Aborted /\ (T \/ (U /\ exists u, m fs = Undef u))).
Proof.
  intros T U A B Q d m k fs H. specialize (H fs). unfold dres.
  destruct (d fs) as [[[a|] fs']|u|].
  - destruct H as [-> _]. left. reflexivity.
  - right. split; [reflexivity|exact H].
  - rewrite H. left. reflexivity.
  - rewrite H. left. reflexivity.
Qed.

(* One call, in general. *)
Lemma fstep_agrees : forall T U P lib al f op fs,
  (T \/ U) -> (T \/ alloc_ok al) -> gf T f -> (T \/ no_null op) ->
  fstep_d P lib al f op fs = returned (fstep P lib al f op fs) \/
  (fstep_d P lib al f op fs = Done Aborted /\
    (T \/ (U /\ exists u, fstep P lib al f op fs = Undef u))).
Proof.
  intros T U P lib al f op fs HTU HA Hf Hn.
  assert (Hb : forall buf, gout T (IoBuf buf)) by (intros; right; reflexivity).
  destruct op as [input|input id buf|input|input buf]; cbn [fstep_d fstep].
  - destruct (dres_agrees T U _ _ _ _ _ (fun '(f, st, bs) => (f, FProtected st bs)) fs (fprotect_ag T U HTU P al f input HA)) as [E|[E K]].
    + left. rewrite E. f_equal. destruct (fp_protect P al f input fs) as [[[[? ?] ?] ?]|u|]; reflexivity.
    + right. split; [exact E|]. destruct K as [K|[K [u ->]]]; [left; exact K|right; split; [exact K|]]. exists u. reflexivity.
  - destruct (dres_agrees T U _ _ _ _ _ (fun '(f, st, buf) => (f, FProtectedInto st buf)) fs (protect_into_ag T U HTU P f input id (IoBuf buf) (Hb buf))) as [E|[E K]].
    + left. rewrite E. f_equal. destruct (fp_protect_into P f input id (IoBuf buf) fs) as [[[[? ?] ?] ?]|u|]; reflexivity.
    + right. split; [exact E|]. destruct K as [K|[K [u ->]]]; [left; exact K|right; split; [exact K|]]. exists u. reflexivity.
  - destruct (dres_agrees T U _ _ _ _ _ (fun '(f, st, bs) => (f, FUnprotected st bs)) fs (funprotect_ag T U P lib al f input HA Hf Hn)) as [E|[E K]].
    + left. rewrite E. f_equal. destruct (fp_unprotect P lib al f input fs) as [[[[? ?] ?] ?]|u|]; reflexivity.
    + right. split; [exact E|]. destruct K as [K|[K [u ->]]]; [left; exact K|right; split; [exact K|]]. exists u. reflexivity.
  - destruct (dres_agrees T U _ _ _ _ _ (fun '(f, st, buf, n) => (f, FUnprotectedInto st buf n)) fs (unprotect_into_ag T U P lib f input (IoBuf buf) Hf Hn (Hb buf))) as [E|[E K]].
    + left. rewrite E. f_equal. destruct (fp_unprotect_into P lib f input (IoBuf buf) fs) as [[[[[? ?] ?] ?] ?]|u|]; reflexivity.
    + right. split; [exact E|]. destruct K as [K|[K [u ->]]]; [left; exact K|right; split; [exact K|]]. exists u. reflexivity.
Qed.

Lemma D88step : forall P lib al f op fs,
  fstep_d P lib al f op fs = Done Aborted \/ fstep_d P lib al f op fs = returned (fstep P lib al f op fs).
Proof.
  intros P lib al f op fs.
  destruct (fstep_agrees True False P lib al f op fs (or_introl I) (or_introl I) (or_introl I) (or_introl I)) as [E|[E _]]; auto.
Qed.

Lemma D88run : forall P lib al ops f,
  frun_d P lib al f ops = Done Aborted \/ frun_d P lib al f ops = returned (frun P lib al f ops).
Proof.
  intros P lib al. induction ops as [|[op fs] ops IH]; intros f; cbn [frun_d frun]; [right; reflexivity|].
  destruct (D88step P lib al f op fs) as [-> | ->]; [left; reflexivity|].
  destruct (fstep P lib al f op fs) as [[f1 r]|u|]; cbn [returned obind]; [|right; reflexivity..].
  destruct (IH f1) as [-> | ->]; [left; reflexivity|]. right.
  destruct (frun P lib al f1 ops) as [[f2 rs]|u|]; reflexivity.
Qed.

(* Without null pointers. *)
Lemma D88no : forall P lib al a ops rs f, protector P lib al a ops rs f ->
  forall op fs, fop_ok op -> no_null op -> fstep_d P lib al f op fs = returned (fstep P lib al f op fs).
Proof.
  intros P lib al a ops rs f Hp op fs Hop Hn. pose proof Hp as (HP & HA & _).
  assert (Hf : forall T, gf T f).
  { intros T. right. destruct (protector_winv _ _ _ _ _ _ _ Hp) as (d & din & W & _).
    destruct (cw_wk _ _ _ _ W) as (o & [_ Ht] & _). intros Hr. unfold has_tickets.
    destruct o as [l|]; cbn [tick_ok] in Ht; [destruct Ht as (ts & -> & _); reflexivity|]. destruct Ht as (_ & _ & Ht). congruence. }
  assert (Hc : (exists input, op = FProtect input \/ exists id buf, op = FProtectInto input id buf) \/
    match op with FProtect _ | FProtectInto _ _ _ => False | _ => True end)
    by (destruct op; [left; eexists; left; reflexivity|left; eexists; right; eauto|right; exact I|right; exact I]).
  destruct Hc as [(input & Hi)|Hc].
  - destruct (fstep_agrees False True P lib al f op fs (or_intror I) (or_intror HA) (Hf _) (or_intror Hn)) as [E|[_ [K|[_ (u & K)]]]];
      [exact E|contradiction|].
    destruct (F27 _ _ _ _ _ _ _ Hp op fs Hop) as [Q _]. destruct (Q input Hi) as [y Q']. congruence.
  - destruct op as [input|input id buf|input|input buf]; try contradiction; cbn [fstep_d fstep no_null] in *.
    + destruct (dres_agrees False False _ _ _ _ _ (fun '(f, st, bs) => (f, FUnprotected st bs)) fs
        (funprotect_ag False False P lib al f input (or_intror HA) (Hf _) (or_intror Hn))) as [E|[_ [K|[K _]]]]; try contradiction.
      rewrite E. f_equal. destruct (fp_unprotect P lib al f input fs) as [[[[? ?] ?] ?]|u|]; reflexivity.
    + destruct (dres_agrees False False _ _ _ _ _ (fun '(f, st, buf, n) => (f, FUnprotectedInto st buf n)) fs
        (unprotect_into_ag False False P lib f input (IoBuf buf) (Hf _) (or_intror Hn) (or_intror eq_refl))) as [E|[_ [K|[K _]]]]; try contradiction.
      rewrite E. f_equal. destruct (fp_unprotect_into P lib f input (IoBuf buf) fs) as [[[[[? ?] ?] ?] ?]|u|]; reflexivity.
Qed.

Lemma D88hist : forall P lib al a, prims_ok P -> alloc_ok al -> ca_in_seq (fa_crypt a) < two64 -> ca_out_seq (fa_crypt a) < two64 ->
  forall fs f0 fs', fp_create P lib a fs = Done (inr f0, fs') ->
  forall ops, fops_ok ops -> Forall (fun p => no_null (fst p)) ops ->
  frun_d P lib al f0 ops = returned (frun P lib al f0 ops).
Proof.
  intros P lib al a HP HA Hi Ho fs f0 fs' Ec.
  assert (G : forall ops ops0 rs0 f, fops_ok ops0 -> frun P lib al f0 ops0 = Done (f, rs0) -> fops_ok ops ->
    Forall (fun p => no_null (fst p)) ops -> frun_d P lib al f ops = returned (frun P lib al f ops)).
  { induction ops as [|[op g] ops IH]; intros ops0 rs0 f H0 E0 Hok Hn; [reflexivity|]. cbn [frun_d frun].
    inversion Hok as [|? ? Hop Hok']; subst. inversion Hn as [|? ? Hno Hn']; subst. cbn [fst] in Hop, Hno.
    assert (Hp : protector P lib al a ops0 rs0 f).
    { split; [exact HP|]. split; [exact HA|]. split; [exact Hi|]. split; [exact Ho|]. split; [exact H0|]. exists f0, fs, fs'. auto. }
    rewrite (D88no _ _ _ _ _ _ _ Hp op g Hop Hno).
    destruct (fstep P lib al f op g) as [[f1 r]|u|] eqn:Es; cbn [returned obind]; [|reflexivity..].
    rewrite (IH (ops0 ++ [(op, g)]) (rs0 ++ [r]) f1).
    - destruct (frun P lib al f1 ops) as [[f2 rs]|u|]; reflexivity.
    - apply Forall_app. split; [exact H0|]. apply Forall_cons; [exact Hop|apply Forall_nil].
    - exact (frun_snoc _ _ _ _ _ _ _ _ _ _ _ E0 Es).
    - exact Hok'.
    - exact Hn'. }
  intros ops Hok Hn. exact (G ops [] [] f0 ltac:(constructor) eq_refl Hok Hn).
Qed.

(* The AEAD crypters. *)
Lemma D88aead : forall P c op fs,
  astep_d P c op fs =
    match op with
    | AEncrypt _ _ _ (IoNull _) => Done Aborted
    | ADecrypt _ _ _ (IoNull n) => if 0 <? n then Done Aborted else returned (astep P c op fs)
    | _ => returned (astep P c op fs)
    end.
Proof.
  intros P c op fs.
  assert (G : forall (m : M (crypter * cstatus * iovec)),
    dres (plain m fs) (fun '(c, (st, n), out) => (c, {| ar_st := st; ar_n := n; ar_out := out |})) =
    returned (obind (m fs) (fun '((c, (st, n), out), _) => Done (c, {| ar_st := st; ar_n := n; ar_out := out |})))).
  { intros m. unfold plain, bind, dret, ret, dres. destruct (m fs) as [[[[c' [st n]] o] fs']|u|]; reflexivity. }
  destruct op as [nonce aad pt [d|n]|nonce aad ct [d|n]]; unfold astep_d, astep, aead_encrypt_d, aead_decrypt_d, dbind at 1; cbn [not_null iov_len].
  - unfold bind at 1, assert_, ret at 1. exact (G (aead_encrypt P c nonce aad pt (IoBuf d))).
  - reflexivity.
  - replace ((if lenN d =? 0 then dret tt else assert_ true)) with (dret tt) by (destruct (lenN d =? 0); reflexivity).
    unfold bind at 1, dret at 1, ret at 1. exact (G (aead_decrypt P c nonce aad ct (IoBuf d))).
  - destruct (N.eqb_spec n 0) as [-> | Hn].
    + unfold bind at 1, dret at 1, ret at 1. exact (G (aead_decrypt P c nonce aad ct (IoNull 0))).
    + replace (0 <? n) with true by lia. reflexivity.
Qed.

(* Protect into a null buffer. *)
Lemma D88null : forall P lib al a ops rs f, protector P lib al a ops rs f ->
  forall input id n fs, protected_size (sum_lens input) < two64 ->
  fp_protect_into_d P f input id (IoNull n) fs =
    if N.min (sum_lens input) 16384 + 22 <=? n then Done (None, fs)
    else Done (Some (fp_destroy f id, kFailedPrecondition, IoNull n), fs).
Proof.
  intros P lib al a ops rs f Hp input id n fs Hs.
  assert (Hs' : sum_lens input < two64).
  { unfold protected_size in Hs. pose proof (N.le_0_l (22 * record_count (sum_lens input))). lia. }
  destruct (protector_winv _ _ _ _ _ _ _ Hp) as (d & din & W & Ro & Ri).
  unfold fp_protect_into_d. rewrite total_len_sum by exact Hs'. unfold kTlsMaxPlaintextSize.
  set (m := if sum_lens input <? 16384 then sum_lens input else 16384).
  assert (Hm : m = N.min (sum_lens input) 16384) by (unfold m; destruct (N.ltb_spec (sum_lens input) 16384); lia). rewrite <- Hm.
  destruct (cur_start input) as (C1 & C2 & _).
  destruct (collect_chunk_spec input 0 m (lens_ok_sum _ Hs') C1 ltac:(rewrite C2; lia)) as (ps & vs' & on' & Ec & Sp & _).
  pose proof (collect_ag False True (or_intror I) input 0 m fs) as K.
  unfold dbind at 1, bind at 1. unfold lift in K. rewrite Ec in K.
  destruct (collect_chunk_d input 0 m fs) as [[[[ps' c']|] fs1]|u|]; try discriminate K.
  2: { destruct K as [K|[_ [u K]]]; [contradiction|discriminate K]. }
  destruct K as [K _]. injection K as <- <- <-.
  unfold dbind at 1, bind at 1. unfold crypt_protect_d. rewrite total_len_sum by lia. rewrite Sp. unfold kTlsMaxPlaintextSize.
  replace (16384 <? m) with false by lia.
  unfold dbind at 1, bind at 1, plain at 1, bind at 1, lift at 1. rewrite (record_overhead_spec _ _ _ Ri). cbn [dret ret iov_len].
  unfold dret at 1, ret at 1.
  destruct (N.ltb_spec n (m + 22)).
  - replace (m + 22 <=? n) with false by lia. unfold dret, ret. destruct f; reflexivity.
  - replace (m + 22 <=? n) with true by lia.
    unfold dbind at 1, bind at 1, plain at 1, bind at 1, lift at 1. rewrite (half_tag_spec _ _ _ Ro). reflexivity.
Qed.

(* A null fragment inside the payload. *)
Lemma header_read : forall hdr p p1 rest, is_record hdr p -> forall fs,
  exists c, read_header_d 5 [] (IoBuf (hdr ++ p1) :: rest, 0) fs = Done (Some (inr (hdr, c)), fs) /\
    header_payload_size hdr = lenN p /\
    ((p1 = [] /\ c = (rest, 0)) \/ (p1 <> [] /\ c = (IoBuf (hdr ++ p1) :: rest, 5))).
Proof.
  intros hdr p p1 rest [-> Hp] fs. rewrite tls_header_shape. cbn [app].
  set (a := lenN p / 256 mod 256). set (b := lenN p mod 256).
  assert (E : a * 256 + b = lenN p) by (unfold a, b; rewrite (N.mod_small (lenN p / 256)) by (apply N.div_lt_upper_bound; lia); pose proof (N.div_mod (lenN p) 256 ltac:(lia)); lia).
  assert (L : lenN (23 :: 3 :: 3 :: a :: b :: p1) = 5 + lenN p1) by (rewrite !lenN_cons; lia).
  destruct p1 as [|q p1].
  - exists (rest, 0). split; [|split; [exact E|left; auto]]. reflexivity.
  - exists (IoBuf (23 :: 3 :: 3 :: a :: b :: q :: p1) :: rest, 5). split; [|split; [exact E|right; split; [discriminate|reflexivity]]].
    assert (Lq : 1 <= lenN (q :: p1)) by (rewrite lenN_cons; lia).
    assert (St : forall on x, nth_error (23 :: 3 :: 3 :: a :: b :: q :: p1) (N.to_nat on) = Some x -> on < 5 ->
      read_byte_d (IoBuf (23 :: 3 :: 3 :: a :: b :: q :: p1) :: rest, on) fs =
      Done (Some (Some (x, (IoBuf (23 :: 3 :: 3 :: a :: b :: q :: p1) :: rest, on + 1))), fs)).
    { intros on x Hx Ho. unfold read_byte_d, dbind, bind, assert_, plain, ret, lift, bind, dret, ret. cbn [not_null read_byte iov_read].
      rewrite Hx. cbn [obind iov_len]. rewrite L. replace (5 + lenN (q :: p1) <=? on + 1) with false by lia. reflexivity. }
    cbn [read_header_d]. unfold dbind, bind.
    rewrite (St 0 23 eq_refl ltac:(lia)). cbn [length N.eqb negb kTls12ApplicationData Pos.eqb app].
    change (0 + 1) with 1. rewrite (St 1 3 eq_refl ltac:(lia)). cbn [length N.eqb negb kTls12WireVersion Pos.eqb app].
    change (1 + 1) with 2. rewrite (St 2 3 eq_refl ltac:(lia)). cbn [length N.eqb negb kTls12WireVersion Pos.eqb app].
    change (2 + 1) with 3. rewrite (St 3 a eq_refl ltac:(lia)). cbn [length app].
    change (3 + 1) with 4. rewrite (St 4 b eq_refl ltac:(lia)). reflexivity.
Qed.

Lemma isolate_null : forall vs on need p1 n rest fs,
  (vs = IoNull n :: rest /\ lenN p1 = 0 \/ exists h, vs = IoBuf (h ++ p1) :: IoNull n :: rest /\ on = lenN h /\ p1 <> [] /\ lenN (h ++ p1) < two64) ->
  lenN p1 < need -> isolate_payload_d vs on need fs = Done (None, fs).
Proof.
  intros vs on need p1 n rest fs [[-> H0]|(h & -> & -> & Hp & H64)] Hn.
  - cbn [isolate_payload_d]. replace (need =? 0) with false by lia. reflexivity.
  - cbn [isolate_payload_d]. replace (need =? 0) with false by lia.
    unfold dbind at 1, bind at 1, assert_ at 1, ret at 1. cbn [not_null iov_len]. rewrite lenN_app in *.
    replace (sub64 (lenN h + lenN p1) (lenN h)) with (lenN p1) by (rewrite sub64_small by lia; lia).
    replace (N.min (lenN p1) need) with (lenN p1) by lia. cbn zeta.
    unfold dbind at 1, bind at 1, plain at 1, bind at 1, lift at 1. cbn [iov_slice]. unfold dret at 1, ret at 1.
    replace (lenN p1 + lenN h =? lenN h + lenN p1) with true by lia.
    unfold dbind at 1, bind at 1. replace (need - lenN p1 =? 0) with false by lia. reflexivity.
Qed.

Lemma D88gap : forall P lib al a ops rs f, protector P lib al a ops rs f ->
  forall hdr p1 p2 rest fs, is_record hdr (p1 ++ p2) -> p2 <> [] -> 17 <= lenN (p1 ++ p2) ->
  sum_lens (IoBuf (hdr ++ p1) :: IoNull 0 :: IoBuf p2 :: rest) < two64 ->
  (forall buf, fstep_d P lib al f (FUnprotectInto (IoBuf (hdr ++ p1) :: IoNull 0 :: IoBuf p2 :: rest) buf) fs = Done Aborted) /\
  fstep_d P lib al f (FUnprotect (IoBuf (hdr ++ p1) :: IoNull 0 :: IoBuf p2 :: rest)) fs = Done Aborted.
Proof.
  intros P lib al a ops rs f Hp hdr p1 p2 rest fs Hr Hne H17 Hs.
  set (input := IoBuf (hdr ++ p1) :: IoNull 0 :: IoBuf p2 :: rest) in *.
  pose proof (protector_overhead _ _ _ _ _ _ _ Hp) as Eo.
  assert (Lh : lenN hdr = 5) by (destruct Hr as [-> _]; reflexivity).
  assert (L2 : 0 < lenN p2) by (destruct p2; [contradiction|rewrite lenN_cons; lia]).
  rewrite lenN_app in H17.
  assert (L : 22 <= sum_lens input) by (unfold input; cbn [sum_lens iov_len]; rewrite lenN_app; lia).
  assert (L64 : lenN (hdr ++ p1) < two64) by (unfold input in Hs; cbn [sum_lens iov_len] in Hs; lia).
  destruct (header_read hdr (p1 ++ p2) p1 (IoNull 0 :: IoBuf p2 :: rest) Hr fs) as (c & Eh & Es & Hc).
  fold input in Eh. rewrite lenN_app in Es.
  assert (Ei : isolate_payload_d (fst c) (snd c) (lenN p1 + lenN p2) fs = Done (None, fs)).
  { destruct Hc as [[-> ->]|[Hp1 ->]]; cbn [fst snd].
    - apply (isolate_null _ _ _ [] 0 (IoBuf p2 :: rest)); [left; auto|lia].
    - apply (isolate_null _ _ _ p1 0 (IoBuf p2 :: rest)); [right; exists hdr; auto|lia]. }
  destruct c as [vs on]. cbn [fst snd] in Ei. split.
  - intros buf. cbn [fstep_d]. unfold fp_unprotect_into_d, number_bytes_to_unprotect. rewrite Eo, (total_len_sum _ Hs).
    unfold dbind at 1, bind at 1, plain at 1, bind at 1, lift at 1. cbn [obind]. replace (sum_lens input <? 22) with false by lia.
    unfold dret at 1, ret at 1. unfold kTlsRecordHeaderSize. replace (sum_lens input - 5 =? 0) with false by lia.
    unfold dbind at 1, bind at 1. rewrite Eh. rewrite Es. unfold dbind at 1, bind at 1. rewrite Ei. reflexivity.
  - cbn [fstep_d]. unfold fp_unprotect_d. rewrite Eo, (total_len_sum _ Hs).
    unfold dbind at 1, bind at 1, plain at 1, bind at 1, lift at 1. unfold dret at 1, ret at 1. replace (sum_lens input <? 22) with false by lia.
    cbn [unprotect_loop_d]. rewrite Eo. unfold dbind at 1, bind at 1, plain at 1, bind at 1, lift at 1. unfold dret at 1, ret at 1.
    replace (sum_lens input <? 22) with false by lia.
    unfold dbind at 1, bind at 1. rewrite Eh. rewrite Es. cbn zeta. unfold dbind at 1, bind at 1. rewrite Ei. reflexivity.
Qed.
