(* Counterexamples for the frame protector. *)
From Coq Require Import List NArith ZArith Bool Lia ZifyBool ZifyNat ZifyN Permutation.
From Verif Require Import Base BaseProofs Aead SpecAead Hkdf HalfConn SpecTls HalfProofs Options HsHandler SpecHs Crypter
  SpecRecord SpecRx CrypterProofs CrypterRun CrypterLemmas FrameProt SpecFrame FrameRun FrameProofs FrameRx FrameSim FrameLink FrameTrip FrameFinal
  Toy ToyProofs FrameExamples.
Import ListNotations.
Local Open Scope N_scope.

Lemma step_check : forall (op : fop) (chk : fprot -> fres -> bool),
  match fplay OpenSSL (fargs S0) [] with
  | Done (f, _) => match fstep toy OpenSSL toy_al f op [] with Done (f', r) => chk f' r | _ => false end
  | _ => false end = true ->
  exists f f' r, protector toy OpenSSL toy_al (fargs S0) [] [] f /\ fstep toy OpenSSL toy_al f op [] = Done (f', r) /\ chk f' r = true.
Proof.
  intros op chk H.
  destruct (fplay_check OpenSSL (fargs S0) [] (fun f rs => match rs with [] =>
    match fstep toy OpenSSL toy_al f op [] with Done (f', r) => chk f' r | _ => false end | _ => false end)) as (f & rs & Hp & Hc).
  - destruct (fplay OpenSSL (fargs S0) []) as [[f rs]|u|] eqn:E; try discriminate.
    assert (rs = []) as ->; [|exact H]. unfold fplay in E. destruct (fp_create toy OpenSSL (fargs S0) []) as [[[c|f0] fs']|u|]; try discriminate.
    cbn in E. congruence.
  - reflexivity.
  - reflexivity.
  - constructor.
  - destruct rs; [|discriminate]. exists f. destruct (fstep toy OpenSSL toy_al f op []) as [[f' r]|u|]; try discriminate. eauto.
Qed.

Definition bad_input : list iovec := [IoNull 1].
Lemma bad_input_ok : protected_size (sum_lens bad_input) < two64.
Proof. apply N.ltb_lt. vm_compute. reflexivity. Qed.

(* C23 *)
Lemma R23a : exists P lib al a f input f' st bs es, protector P lib al a [] [] f /\ fop_ok (FProtect input) /\
  fstep P lib al f (FProtect input) [] = Done (f', FProtected st bs) /\
  fp_events f' = fp_events f ++ es /\ ~ NoDup (destroys es).
Proof.
  destruct (step_check (FProtect bad_input) (fun _ r => match r with FProtected st _ => negb (is_ok st) | _ => false end))
    as (f & f' & r & Hp & E & H); [vm_compute; reflexivity|].
  destruct r as [st bs| | |]; try discriminate.
  destruct (F23 _ _ _ _ _ _ _ Hp bad_input [] bad_input_ok) as ((f1 & st1 & bs1 & size & es & K1 & K2 & K3 & K4 & K5) & _).
  rewrite E in K1. inversion K1; subst.
  exists toy, OpenSSL, toy_al, (fargs S0), f, bad_input, f1, st1, bs1, (EvAlloc (fp_next f) size :: es).
  split; [exact Hp|]. split; [exact bad_input_ok|]. split; [exact E|]. split; [exact K2|].
  destruct K5 as (_ & K5); [destruct st1; discriminate|]. cbn [destroys flat_map app]. fold (destroys es). rewrite K5.
  intros N. inversion N; subst. apply H2. left. reflexivity.
Qed.

Lemma R23b : exists P lib al a f input id buf f' st out, protector P lib al a [] [] f /\ fop_ok (FProtectInto input id buf) /\
  fstep P lib al f (FProtectInto input id buf) [] = Done (f', FProtectedInto st out) /\
  In id (destroys (fp_events f')) /\ ~ In id (allocs (fp_events f')).
Proof.
  destruct (step_check (FProtectInto bad_input 99 [])
    (fun f r => match r, fp_events f with FProtectedInto st _, [EvDestroy 99] => true | _, _ => false end))
    as (f & f' & r & Hp & E & H); [vm_compute; reflexivity|].
  destruct r as [|st out| |]; try discriminate.
  exists toy, OpenSSL, toy_al, (fargs S0), f, bad_input, 99, [], f', st, out.
  split; [exact Hp|]. split; [exact bad_input_ok|]. split; [exact E|].
  assert (fp_events f' = [EvDestroy 99]) as ->.
  { revert H. generalize (fp_events f'). intros es H.
    repeat (match type of H with context [match ?z with _ => _ end] => is_var z; destruct z; try discriminate end). reflexivity. }
  split; [left; reflexivity|intros []].
Qed.

(* C24: a good record, then 22 bytes that are not a record. *)
Definition rec1 : bytes := from_peer S0 [[1; 2; 3]].
Lemma R24 : exists P lib al a f input f' st bs es, protector P lib al a [] [] f /\ fop_ok (FUnprotect input) /\
  fstep P lib al f (FUnprotect input) [] = Done (f', FUnprotected st bs) /\ st <> kOk /\ bs = [] /\
  fp_events f' = fp_events f ++ es /\ allocs es <> [] /\ destroys es = [].
Proof.
  set (input := [IoBuf (rec1 ++ zeros 22)]).
  assert (Hop : fop_ok (FUnprotect input)) by (apply unprotect_ok; [vm_compute; reflexivity|repeat constructor]).
  destruct (step_check (FUnprotect input)
    (fun f r => match r, fp_events f with FUnprotected st [], [EvAlloc _ _] => negb (is_ok st) | _, _ => false end))
    as (f & f' & r & Hp & E & H); [vm_compute; reflexivity|].
  destruct r as [| |st bs|]; try discriminate.
  destruct (F24 _ _ _ _ _ _ _ Hp input [] f' st bs Hop E) as (es & K1 & _ & _ & K).
  assert (Hev : bs = [] /\ st <> kOk /\ exists i n, fp_events f' = [EvAlloc i n]).
  { revert H. generalize (fp_events f'). intros ev H.
    repeat (match type of H with context [match ?z with _ => _ end] => is_var z; destruct z; try discriminate end).
    split; [reflexivity|]. split; [destruct st; discriminate|]. eauto. }
  destruct Hev as (-> & Hst & i & n & Hev).
  assert (Hf : fp_events f = []).
  { destruct Hp as (_ & _ & Hi & Ho & _ & f0 & fs & fs' & Ec & Er). cbn in Er. inversion Er; subst.
    destruct (fp_create_inv _ _ _ _ _ _ toy_ok Hi Ho Ec) as (_ & _ & _ & x & _ & ->). reflexivity. }
  exists toy, OpenSSL, toy_al, (fargs S0), f, input, f', st, [], es.
  split; [exact Hp|]. split; [exact Hop|]. split; [exact E|]. split; [exact Hst|]. split; [reflexivity|].
  split; [exact K1|]. rewrite Hf in K1. cbn [app] in K1. rewrite <- K1, Hev. split; [discriminate|reflexivity].
Qed.

(* C25: a record and one more byte. *)
Lemma R25 : exists P lib al a f input f' bs, protector P lib al a [] [] f /\ fop_ok (FUnprotect input) /\
  fstep P lib al f (FUnprotect input) [] = Done (f', FUnprotected kOk bs) /\
  ~ (exists ps, whole_records ps (iov_concat input)).
Proof.
  set (input := [IoBuf (rec1 ++ [23])]).
  assert (Hop : fop_ok (FUnprotect input)) by (apply unprotect_ok; [vm_compute; reflexivity|repeat constructor]).
  destruct (step_check (FUnprotect input) (fun _ r => match r with FUnprotected st _ => is_ok st | _ => false end))
    as (f & f' & r & Hp & E & H); [vm_compute; reflexivity|].
  destruct r as [| |st bs|]; try discriminate. assert (st = kOk) as -> by (destruct st; try discriminate; reflexivity).
  exists toy, OpenSSL, toy_al, (fargs S0), f, input, f', bs. split; [exact Hp|]. split; [exact Hop|]. split; [exact E|].
  intros (ps & Ew & Hps). unfold input in Ew. cbn [iov_concat flat_map iov_data] in Ew. rewrite app_nil_r in Ew.
  destruct (records_framed toy [[1; 2; 3]] (f_in (fargs S0)) toy_ok) as (qs & Eq & F). inversion F as [|? q ? ? Hq F']; subst.
  inversion F'; subst. cbn [map concat] in Eq. rewrite app_nil_r in Eq. unfold rec1, from_peer in Ew. rewrite Eq in Ew.
  destruct ps as [|p ps]; [unfold framed in Ew; rewrite tls_header_shape in Ew; discriminate|].
  pose proof (Forall_inv Hps) as Hp1. cbn [map concat] in Ew. apply framed_inj in Ew; [|rewrite Hq; reflexivity|exact Hp1].
  destruct Ew as [_ Ew]. destruct ps as [|p2 ps]; [discriminate|]. cbn [map concat] in Ew. unfold framed in Ew.
  rewrite tls_header_shape in Ew. discriminate.
Qed.

(* C26: two records. *)
Lemma R26 : exists P lib al a f input buf f' out len ps, protector P lib al a [] [] f /\ fop_ok (FUnprotectInto input buf) /\
  whole_records ps (iov_concat input) /\ length ps = 2%nat /\
  fstep P lib al f (FUnprotectInto input buf) [] = Done (f', FUnprotectedInto kOk out len).
Proof.
  set (input := [IoBuf rec2]).
  assert (Hop : fop_ok (FUnprotectInto input (zeros 30))) by (apply unprotect_ok; [vm_compute; reflexivity|repeat constructor]).
  destruct (step_check (FUnprotectInto input (zeros 30)) (fun _ r => match r with FUnprotectedInto st _ _ => is_ok st | _ => false end))
    as (f & f' & r & Hp & E & H); [vm_compute; reflexivity|].
  destruct r as [| | |st out len]; try discriminate. assert (st = kOk) as -> by (destruct st; try discriminate; reflexivity).
  destruct (records_framed toy [[1; 2; 3]; [4]] (f_in (fargs S0)) toy_ok) as (qs & Eq & F).
  exists toy, OpenSSL, toy_al, (fargs S0), f, input, (zeros 30), f', out, len, qs. split; [exact Hp|]. split; [exact Hop|].
  split.
  { split; [unfold input; cbn [iov_concat flat_map iov_data]; rewrite app_nil_r; exact Eq|].
    inversion F as [|? q1 ? ? H1 F1]; subst. inversion F1 as [|? q2 ? ? H2 F2]; subst. inversion F2; subst.
    repeat constructor; [rewrite H1|rewrite H2]; reflexivity. }
  split; [|exact E]. clear -F. inversion F as [|? q1 ? ? H1 F1]; subst. inversion F1 as [|? q2 ? ? H2 F2]; subst. inversion F2; reflexivity.
Qed.

(* C27: an empty buffer where a header is expected. *)
Lemma R27 : exists P lib al a f input, protector P lib al a [] [] f /\ fop_ok (FUnprotect input) /\
  fstep P lib al f (FUnprotect input) [] = Undef UbOutOfBounds.
Proof.
  set (input := [IoBuf []; IoBuf rec1]).
  assert (Hop : fop_ok (FUnprotect input)) by (apply unprotect_ok; [vm_compute; reflexivity|repeat constructor]).
  destruct (fplay_check OpenSSL (fargs S0) [] (fun f rs => match rs with [] =>
    match fstep toy OpenSSL toy_al f (FUnprotect input) [] with Undef UbOutOfBounds => true | _ => false end | _ => false end)) as (f & rs & Hp & Hc).
  - vm_compute. reflexivity.
  - reflexivity.
  - reflexivity.
  - constructor.
  - destruct rs; [|discriminate]. exists toy, OpenSSL, toy_al, (fargs S0), f, input. split; [exact Hp|]. split; [exact Hop|].
    destruct (fstep toy OpenSSL toy_al f (FUnprotect input) []) as [?|[]|]; try discriminate. reflexivity.
Qed.

(* C31: fewer than 22 bytes. *)
Lemma R31 : exists P lib al a f input buf f' st out len, protector P lib al a [] [] f /\ fop_ok (FUnprotectInto input buf) /\
  fstep P lib al f (FUnprotectInto input buf) [] = Done (f', FUnprotectedInto st out len) /\ st <> kOk /\ len <> 0.
Proof.
  set (input := [IoBuf [23; 3; 3]]).
  assert (Hop : fop_ok (FUnprotectInto input (zeros 30))) by (apply unprotect_ok; [vm_compute; reflexivity|repeat constructor]).
  destruct (step_check (FUnprotectInto input (zeros 30)) (fun _ r => match r with FUnprotectedInto st _ n => negb (is_ok st) && negb (n =? 0) | _ => false end))
    as (f & f' & r & Hp & E & H); [vm_compute; reflexivity|].
  destruct r as [| | |st out len]; try discriminate. apply andb_prop in H. destruct H as [H1 H2].
  exists toy, OpenSSL, toy_al, (fargs S0), f, input, (zeros 30), f', st, out, len. split; [exact Hp|]. split; [exact Hop|].
  split; [exact E|]. split; [destruct st; discriminate|]. apply negb_true_iff, N.eqb_neq in H2. exact H2.
Qed.
