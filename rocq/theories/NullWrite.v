(* C86: Protect on input with a null pointer of positive length. *)
From Coq Require Import List NArith ZArith Bool Lia ZifyBool ZifyNat ZifyN.
From Verif Require Import Base BaseProofs Aead SpecAead AeadProofs Hkdf HalfConn
  SpecTls HkdfProofs HalfProofs Options HsHandler SpecHs HsProofs Crypter SpecRecord CrypterProofs
  SpecRx CrypterRun CrypterRunProofs SpecRxProofs CrypterLemmas CrypterLemmas2
  FrameProt SpecFrame FrameRun FrameProofs FrameSim FrameTrip FrameFinal FrameRef FrameNull FrameRefProofs EveryFrame BufFinal
  Toy FrameExamples StreamExample BufCases.
Import ListNotations.
Local Open Scope N_scope.
Ltac Zify.zify_post_hook ::= Z.div_mod_to_equations.

Lemma send_null_runs : forall P F bs d buf m, Forall (fun b => lenN b = 16384) bs -> prims_ok P -> dir_usable (dir_adv d (lenN bs)) ->
  16406 * lenN bs + m + 22 <= lenN buf ->
  send_null P F d buf bs m kInvalidArgument (records P d bs ++ zeros (lenN buf - 16406 * lenN bs)) (dir_adv d (lenN bs + 1)).
Proof.
  intros P F bs. induction bs as [|b bs IH]; intros d buf m Hb HP Hu Hl.
  - cbn [records app]. change (lenN (@nil bytes)) with 0 in *. rewrite N.mul_0_r, N.sub_0_r. rewrite dir_adv_0 in Hu. change (dir_adv d (lenN [] + 1)) with (dir_adv d (1 + 0)). rewrite <- dir_adv_next, dir_adv_0.
    apply SnNull; auto.
  - inversion Hb as [|? ? Hb1 Hb2]; subst. cbn [records]. rewrite lenN_cons in *. rewrite <- app_assoc, <- N.add_assoc, <- dir_adv_next.
    rewrite <- dir_adv_next in Hu.
    assert (Ud : dir_usable d) by (destruct Hu as [U1 U2]; split; [exact U1|]; cbn in U2; lia).
    apply SnNext; [lia|exact Ud|]. specialize (IH (dir_next d) (dropN (lenN b + 22) buf) m Hb2 HP Hu).
    rewrite lenN_dropN in IH. replace (lenN buf - (lenN b + 22) - 16406 * lenN bs) with (lenN buf - 16406 * (1 + lenN bs)) in IH by lia.
    apply IH. lia.
Qed.

(* Into a buffer of the caller. *)
Lemma N86into : forall P lib al a ops rs f s, protector P lib al a ops rs f -> no_failures ops ->
  ref_run P (ref_start a) ops (map answer_of rs) s -> r_bad (f_rx s) = false ->
  forall input id buf bs m, fop_ok (FProtectInto input id buf) -> null_block input bs m ->
  dir_usable (dir_adv (f_tx s) (lenN bs)) -> 16406 * lenN bs + m + 22 <= lenN buf ->
  exists f1 out, fstep P lib al f (FProtectInto input id buf) [] = Done (f1, FProtectedInto kInvalidArgument out) /\
    iov_data out = records P (f_tx s) bs ++ zeros (lenN buf - 16406 * lenN bs) /\
    exists ops' rs', protector P lib al a ops' rs' f1 /\ no_failures ops' /\
      ref_run P (ref_start a) ops' (map answer_of rs') {| f_tx := dir_adv (f_tx s) (lenN bs + 1); f_rx := f_rx s |}.
Proof.
  intros P lib al a ops rs f s Hp Hn HR Hb input id buf bs m Hop Hnb Hu Hl. pose proof (proj1 Hp) as HP.
  assert (Hf : Forall (fun b => lenN b = 16384) bs) by (destruct Hnb as (? & ? & ? & ? & _ & _ & _ & _ & K & _); exact K).
  pose proof (send_null_runs P ([] <> @nil bool) bs (f_tx s) buf m Hf HP Hu Hl) as Sa.
  destruct (one_more P lib al a ops rs f s Hp Hn HR Hb (FProtectInto input id buf) _ _ Hop (RsProtectIntoNull P _ s _ _ _ _ _ _ _ _ Hnb Sa))
    as (f1 & r & E & A & Hp1 & Hn1 & HR1); [exact Hb|intros U; inversion U|].
  assert (Er : exists st out, r = FProtectedInto st out).
  { cbn [fstep] in E. destruct (fp_protect_into P f input id (IoBuf buf) []) as [[[[? ?] ?] ?]| |]; cbn [obind] in E; try discriminate.
    injection E as _ <-. eauto. }
  destruct Er as (st & out & ->). cbn in A. injection A as -> A. exists f1, out. split; [exact E|]. split; [exact A|]. eauto.
Qed.

(* Into a buffer of the allocator. *)
Lemma null_size : forall input bs m, null_block input bs m -> 16406 * lenN bs + m + 22 <= protected_size (sum_lens input).
Proof.
  intros input bs m (pre & n & post & part & -> & V & Hn & E & F & L & ->).
  rewrite sum_lens_app. cbn [sum_lens iov_len]. rewrite (sum_lens_concat pre V), E, lenN_app.
  assert (Lc : lenN (concat bs) = 16384 * lenN bs).
  { clear - F. induction bs as [|b bs IH]; [reflexivity|]. inversion F; subst. cbn [concat]. rewrite lenN_app, lenN_cons, IH by assumption. lia. }
  rewrite Lc. unfold protected_size, record_count.
  set (k := lenN part + (n + sum_lens post)).
  replace (16384 * lenN bs + lenN part + (n + sum_lens post)) with (16384 * lenN bs + k) by (unfold k; lia).
  destruct (N.eqb_spec (16384 * lenN bs + k) 0) as [Z|Z]; lia.
Qed.

Lemma N86alloc : forall P lib al a ops rs f s, protector P lib al a ops rs f -> no_failures ops ->
  ref_run P (ref_start a) ops (map answer_of rs) s -> r_bad (f_rx s) = false ->
  forall input bs m, fop_ok (FProtect input) -> null_block input bs m -> dir_usable (dir_adv (f_tx s) (lenN bs)) ->
  exists f1, fstep P lib al f (FProtect input) [] = Done (f1, FProtected kInvalidArgument []) /\
    exists ops' rs', protector P lib al a ops' rs' f1 /\ no_failures ops' /\
      ref_run P (ref_start a) ops' (map answer_of rs') {| f_tx := dir_adv (f_tx s) (lenN bs + 1); f_rx := f_rx s |}.
Proof.
  intros P lib al a ops rs f s Hp Hn HR Hb input bs m Hop Hnb Hu. pose proof (proj1 Hp) as HP.
  assert (Hf : Forall (fun b => lenN b = 16384) bs) by (destruct Hnb as (? & ? & ? & ? & _ & _ & _ & _ & K & _); exact K).
  set (buf := zeros (protected_size (sum_lens input))).
  assert (Lb : lenN buf = protected_size (sum_lens input)) by apply lenN_zeros.
  pose proof (send_null_runs P ([] <> @nil bool) bs (f_tx s) buf m Hf HP Hu ltac:(rewrite Lb; exact (null_size _ _ _ Hnb))) as Sa.
  destruct (one_more P lib al a ops rs f s Hp Hn HR Hb (FProtect input) _ _ Hop (RsProtectNull P _ s _ _ _ _ _ _ _ Hnb Lb Sa))
    as (f1 & r & E & A & Hp1 & Hn1 & HR1); [exact Hb|intros U; inversion U|].
  assert (Er : exists st out, r = FProtected st out).
  { cbn [fstep] in E. destruct (fp_protect P al f input []) as [[[[? ?] ?] ?]| |]; cbn [obind] in E; try discriminate.
    injection E as _ <-. eauto. }
  destruct Er as (st & out & ->). cbn in A. injection A as -> A. destruct out; [|discriminate]. exists f1. split; [exact E|]. eauto.
Qed.

(* The next record sent, on any protector. *)
Lemma next_sent : forall P lib al a ops rs f s, protector P lib al a ops rs f -> no_failures ops ->
  ref_run P (ref_start a) ops (map answer_of rs) s -> r_bad (f_rx s) = false -> dir_usable (f_tx s) ->
  forall c, lenN c <= 16384 -> exists f2 m, fstep P lib al f (FProtect [IoBuf c]) [] = Done (f2, FProtected kOk [m]) /\
    fb_bytes m = tls_record P (f_tx s) ty_application_data c 0.
Proof.
  intros P lib al a ops rs f s Hp Hn HR Hb Hu c Hc.
  assert (Ps : protected_size (lenN c) = lenN c + 22).
  { unfold protected_size, record_count. destruct (N.eqb_spec (lenN c) 0) as [->|K]; [reflexivity|].
    replace ((lenN c + 16383) / 16384) with 1; [lia|]. apply (N.div_unique _ _ 1 (lenN c - 1)); lia. }
  assert (Ic : iov_concat [IoBuf c] = c) by (cbn; apply app_nil_r).
  assert (Sc : sum_lens [IoBuf c] = lenN c) by (cbn [sum_lens iov_len]; lia).
  destruct (one_more P lib al a _ _ f _ Hp Hn HR Hb (FProtect [IoBuf c])
    (ABuffers kOk [tls_record P (f_tx s) ty_application_data c 0])
    {| f_tx := dir_next (f_tx s); f_rx := f_rx s |}) as (f2 & r2 & E2 & A2 & _).
  + cbn [fop_ok]. rewrite Sc, Ps. unfold two64. lia.
  + pose proof (RsProtect P ([] <> @nil bool) s [IoBuf c] [c] (zeros (lenN c + 22)) kOk
      (tls_record P (f_tx s) ty_application_data c 0 ++ dropN (lenN c + 22) (zeros (lenN c + 22)))
      (dir_next (f_tx s))) as K.
    rewrite Ic in K.
    rewrite dropN_all in K by (rewrite lenN_zeros; lia). rewrite app_nil_r in K. apply K.
    * repeat constructor.
    * apply blocks_one. exact Hc.
    * rewrite lenN_zeros, Ps. reflexivity.
    * rewrite <- (app_nil_r (tls_record _ _ _ _ _)). apply SaNext; [rewrite lenN_zeros; lia|exact Hu|].
      rewrite dropN_all by (rewrite lenN_zeros; lia). apply SaDone.
  + exact Hb.
  + intros U. inversion U.
  + assert (Er : exists st bs, r2 = FProtected st bs).
    { cbn [fstep] in E2. destruct (fp_protect P al f [IoBuf c] []) as [[[[? ?] ?] ?]| |]; cbn [obind] in E2; try discriminate.
      injection E2 as _ <-. eauto. }
    destruct Er as (st & bs & ->). cbn in A2. injection A2 as -> A2.
    destruct bs as [|m [|? ?]]; try discriminate. cbn in A2. injection A2 as A2. exists f2, m. auto.
Qed.

(* C86 *)
Lemma N86 : forall P lib al a ops rs f s, protector P lib al a ops rs f -> no_failures ops ->
  ref_run P (ref_start a) ops (map answer_of rs) s -> r_bad (f_rx s) = false ->
  forall input bs m, fop_ok (FProtect input) -> null_block input bs m ->
  dir_usable (dir_adv (f_tx s) (lenN bs)) ->
  (exists f1, fstep P lib al f (FProtect input) [] = Done (f1, FProtected kInvalidArgument []) /\
    (dir_usable (dir_adv (f_tx s) (lenN bs + 1)) -> forall c, lenN c <= 16384 ->
     exists f2 r, fstep P lib al f1 (FProtect [IoBuf c]) [] = Done (f2, FProtected kOk [r]) /\
       fb_bytes r = tls_record P (dir_adv (f_tx s) (lenN bs + 1)) ty_application_data c 0)) /\
  (forall id buf, 16406 * lenN bs + m + 22 <= lenN buf ->
   exists f1 out, fstep P lib al f (FProtectInto input id buf) [] = Done (f1, FProtectedInto kInvalidArgument out) /\
    iov_data out = records P (f_tx s) bs ++ zeros (lenN buf - 16406 * lenN bs) /\
    (dir_usable (dir_adv (f_tx s) (lenN bs + 1)) -> forall c, lenN c <= 16384 ->
     exists f2 r, fstep P lib al f1 (FProtect [IoBuf c]) [] = Done (f2, FProtected kOk [r]) /\
       fb_bytes r = tls_record P (dir_adv (f_tx s) (lenN bs + 1)) ty_application_data c 0)).
Proof.
  intros P lib al a ops rs f s Hp Hn HR Hb input bs m Hs Hnb Hu. split.
  - destruct (N86alloc P lib al a ops rs f s Hp Hn HR Hb input bs m Hs Hnb Hu) as (f1 & E & ops' & rs' & Hp1 & Hn1 & HR1).
    exists f1. split; [exact E|]. intros Hu1 c Hc. exact (next_sent P lib al a ops' rs' f1 _ Hp1 Hn1 HR1 Hb Hu1 c Hc).
  - intros id buf Hl.
    destruct (N86into P lib al a ops rs f s Hp Hn HR Hb input id buf bs m) as (f1 & out & E & A & ops' & rs' & Hp1 & Hn1 & HR1); auto.
    exists f1, out. split; [exact E|]. split; [exact A|]. intros Hu1 c Hc. exact (next_sent P lib al a ops' rs' f1 _ Hp1 Hn1 HR1 Hb Hu1 c Hc).
Qed.

(* One full block, one byte more, and a null pointer. *)
Definition n_input : list iovec := [IoBuf (zeros 16384); IoBuf [7]; IoNull 5].
Lemma n_case : fop_ok (FProtect n_input) /\ null_block n_input [zeros 16384] 6 /\
  dir_usable (dir_adv (f_tx b_ref) (lenN [zeros 16384])) /\ dir_usable (dir_adv (f_tx b_ref) (lenN [zeros 16384] + 1)).
Proof.
  change (lenN [zeros 16384]) with 1. split; [|split; [|split; split; reflexivity]].
  - unfold n_input. cbn [fop_ok sum_lens iov_len]. rewrite lenN_zeros. vm_compute. reflexivity.
  - exists [IoBuf (zeros 16384); IoBuf [7]], 5, [], [7]. split; [reflexivity|]. split; [repeat constructor|]. split; [reflexivity|].
    split; [unfold iov_concat; generalize (zeros 16384); intros z; cbn [concat flat_map iov_data app]; rewrite app_nil_r; reflexivity|].
    split; [constructor; [apply lenN_zeros|constructor]|]. split; reflexivity.
Qed.

Lemma N86refuted : exists P lib al a ops rs f input f1, protector P lib al a ops rs f /\
  fop_ok (FProtect input) /\ fstep P lib al f (FProtect input) [] = Done (f1, FProtected kInvalidArgument []) /\
  exists c f2 r f2' r', fstep P lib al f (FProtect [IoBuf c]) [] = Done (f2, FProtected kOk [r]) /\
    fstep P lib al f1 (FProtect [IoBuf c]) [] = Done (f2', FProtected kOk [r']) /\ fb_bytes r' <> fb_bytes r.
Proof.
  destruct b_case as (rs & f & Hp & Hn & R & Hb & _).
  assert (Nb : null_block [IoNull 1] [] 1).
  { exists [], 1, [], []. split; [reflexivity|]. split; [constructor|]. split; [reflexivity|]. split; [reflexivity|]. split; [constructor|]. split; reflexivity. }
  destruct (N86 _ _ _ _ _ _ _ _ Hp Hn R Hb [IoNull 1] [] 1 ltac:(reflexivity) Nb ltac:(split; reflexivity)) as ((f1 & E & K) & _).
  destruct (K ltac:(split; reflexivity) [] ltac:(discriminate)) as (f2' & r' & E' & B').
  destruct (next_sent _ _ _ _ _ _ _ _ Hp Hn R Hb ltac:(split; reflexivity) [] ltac:(discriminate)) as (f2 & r & E2 & B).
  exists marked, OpenSSL, toy_al, (fargs S0), b_ops, rs, f, [IoNull 1], f1. split; [exact Hp|]. split; [reflexivity|]. split; [exact E|].
  exists [], f2, r, f2', r'. split; [exact E2|]. split; [exact E'|]. rewrite B, B'. intros Q. vm_compute in Q. discriminate Q.
Qed.
