(* Several threads calling Unprotect: concrete cases and a counterexample. *)
From Coq Require Import List NArith ZArith Bool Lia ZifyBool ZifyNat ZifyN.
From Verif Require Import Base BaseProofs Aead SpecAead Hkdf HalfConn SpecTls Options HsHandler Crypter
  SpecRecord CrypterRun FrameProt SpecFrame FrameRun FrameRef Toy ToyProofs FrameExamples RecordExamples
  Conc ConcPair ConcRun ConcRefuted ConcPairExample ConcRead.
Import ListNotations.
Local Open Scope N_scope.

Definition r_call (d : bytes) (id : N) : fcall := {| fc_input := [IoBuf d]; fc_id := id; fc_faults := [] |}.
Definition rec23 (d : dir) (b : bytes) : bytes := tls_record toy d 23 b 0.
(* Three threads: two records; the next record and too few bytes; nothing. *)
Definition r_calls : list (list fcall) :=
  [[r_call (from_peer S0 [[5]; [6; 7]]) 0];
   [r_call (rec23 (dir_next (dir_next (f_in (fargs S0)))) [8]) 10; r_call [23; 3; 3] 20];
   [r_call [] 30]].
Definition r_ku : fcall := r_call (ku_record S0) 40.

Lemma r_calls_ok : Forall (Forall r_ok) r_calls.
Proof. repeat constructor; (apply unprotect_ok; [vm_compute; reflexivity|repeat constructor]). Qed.
Lemma r_ku_ok : r_ok r_ku.
Proof. apply unprotect_ok; [vm_compute; reflexivity|repeat constructor]. Qed.
Definition r_robin : list nat := concat (repeat [0; 1; 2]%nat 70).
Definition r_answers (c : r_threads) : list (list (code * list bytes)) :=
  map (fun t => map (fun '(st, bs, _) => (st, map fb_bytes bs)) (th_done t)) (cf_threads c).

Definition r_got : list (list (code * list bytes)) :=
  [[(kOk, [[5]; [6; 7]])]; [(kOk, [[8]]); (kFailedPrecondition, [])]; [(kFailedPrecondition, [])]].
Definition answers_dec : forall x y : list (list (code * list bytes)), {x = y} + {x <> y}.
Proof. repeat decide equality. Defined.

Lemma r_check :
  match fp_create toy OpenSSL (fargs S0) [] with
  | Done (inr f, _) =>
    match trun r_pre (r_body toy OpenSSL toy_al) (tstart (fp_crypt f) r_calls : r_threads) r_robin with
    | Done c => all_returned c && tests (answers_dec (r_answers c) r_got)
    | _ => false
    end &&
    match r_step toy OpenSSL toy_al (fp_max f) (fp_crypt f) r_ku with
    | Done (x', (st, _, _)) => code_eqb st kOk && negb (hc_epoch (cx_in (fp_crypt f)) =? hc_epoch (cx_in x'))
    | _ => false
    end
  | _ => false
  end = true.
Proof. vm_compute. reflexivity. Qed.

Lemma case93 : exists f (c : r_threads) x' bs evs, protector toy OpenSSL toy_al (fargs S0) [] [] f /\
  Forall (Forall r_ok) r_calls /\
  trun r_pre (r_body toy OpenSSL toy_al) (tstart (fp_crypt f) r_calls) r_robin = Done c /\ finished c /\
  r_answers c = [[(kOk, [[5]; [6; 7]])]; [(kOk, [[8]]); (kFailedPrecondition, [])]; [(kFailedPrecondition, [])]] /\
  r_ok r_ku /\ r_step toy OpenSSL toy_al (fp_max f) (fp_crypt f) r_ku = Done (x', (kOk, bs, evs)) /\
  hc_epoch (cx_in (fp_crypt f)) <> hc_epoch (cx_in x').
Proof.
  pose proof r_check as H.
  destruct (fp_create toy OpenSSL (fargs S0) []) as [[[c|f] fs]|u|] eqn:Ec; try discriminate.
  destruct (trun r_pre (r_body toy OpenSSL toy_al) (tstart (fp_crypt f) r_calls : r_threads) r_robin) as [c|u|] eqn:Er;
    cbn [andb] in H; try discriminate.
  apply andb_prop in H. destruct H as [H H3]. apply andb_prop in H. destruct H as [H1 H2].
  destruct (r_step toy OpenSSL toy_al (fp_max f) (fp_crypt f) r_ku) as [[x' [[st bs] evs]]|u|] eqn:Eu; try discriminate.
  apply andb_prop in H3. destruct H3 as [H3 H4]. apply tests_true in H2.
  exists f, c, x', bs, evs.
  split. { split; [exact toy_ok|]. split; [exact toy_al_ok|]. split; [reflexivity|]. split; [reflexivity|]. split; [constructor|].
           exists f, [], fs. split; [exact Ec|reflexivity]. }
  split; [exact r_calls_ok|]. split; [exact Er|]. split; [apply all_returned_ok; exact H1|]. split; [exact H2|].
  split; [exact r_ku_ok|]. split; [destruct st; (exact Eu || discriminate H3)|]. lia.
Qed.

(* ---- Unprotect of a single record takes no lock ---- *)
(* A close_notify alert, and the record after it. *)
Definition one_alert : fop := FUnprotectInto [IoBuf (tls_record toy (f_in (fargs S0)) 21 [1; 0] 0)] (zeros 20).
Definition one_data : fop := FUnprotectInto [IoBuf (rec23 (dir_next (f_in (fargs S0))) [8])] (zeros 20).
(* The first thread has decrypted the alert when the second makes its whole call. *)
Definition past : list bool := repeat true 10 ++ repeat false 30 ++ repeat true 30.
Definition res_of {A} (p : prog crypt (heap * fres * A)) : option answer :=
  match p with Ret ((_, r), _) => Some (answer_of r) | Step _ _ => None end.
Definition two_answers (o : outcome (fprot * list fres)) : list answer :=
  match o with Done (_, rs) => map answer_of rs | _ => [] end.
Definition closed_buf : answer := ARead kInternal (zeros 20) 0.
Definition answer_dec : forall x y : option answer * option answer, {x = y} + {x <> y}.
Proof. repeat decide equality. Defined.

Lemma into_check :
  match fp_create toy OpenSSL (fargs S0) [] with
  | Done (inr f, _) =>
    tests (answer_eq_dec (two_answers (frun toy OpenSSL toy_al f [(one_alert, []); (one_data, [])])) [closed_buf; closed_buf]) &&
    tests (answer_eq_dec (two_answers (frun toy OpenSSL toy_al f [(one_data, []); (one_alert, [])])) [closed_buf; closed_buf]) &&
    match both past (call_c toy OpenSSL toy_al (heap_of f) one_alert [])
            (call_c toy OpenSSL toy_al (heap_of f) one_data []) (fp_crypt f) with
    | Done (_, p, q) => tests (answer_dec (res_of p, res_of q) (Some closed_buf, Some (ARead kOk ([8; 23] ++ zeros 18) 1)))
    | _ => false
    end
  | _ => false
  end = true.
Proof. vm_compute. reflexivity. Qed.

Lemma one_ok : fop_ok one_alert /\ fop_ok one_data.
Proof. split; (apply unprotect_ok; [vm_compute; reflexivity|repeat constructor]). Qed.

Lemma R93 : exists P lib al a f op1 op2 sched x h1 h2 r1 r2 g1 g2 f12 s1 s2 f21 t1 t2,
  protector P lib al a [] [] f /\ (exists i b, op1 = FUnprotectInto i b) /\ (exists i b, op2 = FUnprotectInto i b) /\
  fop_ok op1 /\ fop_ok op2 /\
  both sched (call_c P lib al (heap_of f) op1 []) (call_c P lib al (heap_of f) op2 []) (fp_crypt f) =
    Done (x, Ret ((h1, r1), g1), Ret ((h2, r2), g2)) /\
  frun P lib al f [(op1, []); (op2, [])] = Done (f12, [s1; s2]) /\
  frun P lib al f [(op2, []); (op1, [])] = Done (f21, [t2; t1]) /\
  r2 <> s2 /\ r2 <> t2.
Proof.
  pose proof into_check as H.
  destruct (fp_create toy OpenSSL (fargs S0) []) as [[[c|f] fs]|u|] eqn:Ec; try discriminate.
  apply andb_prop in H. destruct H as [H H3]. apply andb_prop in H. destruct H as [H1 H2].
  apply tests_true in H1. apply tests_true in H2.
  destruct (both past _ _ (fp_crypt f)) as [[[x p] q]|u|] eqn:Eb; try discriminate. apply tests_true in H3.
  destruct p as [[[h1 r1] g1]|]; [|discriminate]. destruct q as [[[h2 r2] g2]|]; [|discriminate].
  cbn [res_of] in H3. injection H3 as A1 A2.
  destruct (frun toy OpenSSL toy_al f [(one_alert, []); (one_data, [])]) as [[f12 rs]|u|] eqn:E1; try discriminate.
  destruct (frun toy OpenSSL toy_al f [(one_data, []); (one_alert, [])]) as [[f21 ts]|u|] eqn:E2; try discriminate.
  cbn [two_answers] in *.
  destruct rs as [|s1 [|s2 [|]]]; try discriminate. destruct ts as [|t2 [|t1 [|]]]; try discriminate.
  cbn [map] in H1, H2. injection H1 as _ B2. injection H2 as B3 _.
  exists toy, OpenSSL, toy_al, (fargs S0), f, one_alert, one_data, past, x, h1, h2, r1, r2, g1, g2, f12, s1, s2, f21, t1, t2.
  split. { split; [exact toy_ok|]. split; [exact toy_al_ok|]. split; [reflexivity|]. split; [reflexivity|]. split; [constructor|].
           exists f, [], fs. split; [exact Ec|reflexivity]. }
  split; [unfold one_alert; eauto|]. split; [unfold one_data; eauto|]. split; [apply one_ok|]. split; [apply one_ok|].
  split; [exact Eb|]. split; [exact E1|]. split; [exact E2|].
  split; intros K; subst; rewrite A2 in *; discriminate.
Qed.
