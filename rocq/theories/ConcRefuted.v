(* Concrete threads: cases for PropConc.v, and counterexamples. *)
From Coq Require Import List NArith ZArith Bool Lia ZifyBool ZifyNat ZifyN.
From Verif Require Import Base BaseProofs Aead SpecAead Hkdf HalfConn SpecTls HalfRun Options HsHandler Crypter
  SpecRecord CrypterRun FrameProt SpecFrame FrameRun FrameFinal Toy ToyProofs HalfExamples FrameExamples RecordExamples
  Conc ConcAlone ConcRun ConcInst ConcInst2.
Import ListNotations.
Local Open Scope N_scope.

(* ---- Protect and Unprotect ---- *)
(* A KeyUpdate record from the peer. *)
Definition ku_record (s : suite) : bytes := tls_record toy (f_in (fargs s)) 22 [24; 0; 0; 1; 0] 0.
(* Protect loads the pointer; Unprotect runs to its end; Protect uses the
   pointer. *)
Definition race : list bool := [true] ++ repeat false 40 ++ [true].

Lemma R28_check : forall lib s,
  match fp_create toy lib (fargs s) [] with
  | Done (inr f, _) =>
    match fp_protect toy toy_al f [IoBuf [1]] [], fp_unprotect toy lib toy_al f [IoBuf (ku_record s)] [] with
    | Done (_, kOk, _, _), Done (_, kOk, _, _) =>
      match both race (fp_protect_c toy toy_al (heap_of f) [IoBuf [1]] [])
              (fp_unprotect_c toy lib toy_al (heap_of f) [IoBuf (ku_record s)] []) (fp_crypt f) with
      | Undef UbUseAfterFree => true
      | _ => false
      end
    | _, _ => false
    end
  | _ => false
  end = true.
Proof. intros [] []; vm_compute; reflexivity. Qed.

Lemma ku_ok : forall s, fop_ok (FUnprotect [IoBuf (ku_record s)]).
Proof. intro s. apply unprotect_ok; [destruct s; vm_compute; reflexivity|repeat constructor]. Qed.

Lemma R28 : exists P lib al a f in1 in2 sched fp bs1 gs1 fu bs2 gs2,
  protector P lib al a [] [] f /\ fop_ok (FProtect in1) /\ fop_ok (FUnprotect in2) /\
  fp_protect P al f in1 [] = Done ((fp, kOk, bs1), gs1) /\
  fp_unprotect P lib al f in2 [] = Done ((fu, kOk, bs2), gs2) /\
  both sched (fp_protect_c P al (heap_of f) in1 []) (fp_unprotect_c P lib al (heap_of f) in2 []) (fp_crypt f) =
    Undef UbUseAfterFree.
Proof.
  pose proof (R28_check BoringSSL AES_128_GCM_SHA256) as H.
  exists toy, BoringSSL, toy_al, (fargs AES_128_GCM_SHA256).
  destruct (fp_create toy BoringSSL (fargs AES_128_GCM_SHA256) []) as [[[c|f] fs]|u|] eqn:Ec; try discriminate.
  exists f, [IoBuf [1]], [IoBuf (ku_record AES_128_GCM_SHA256)], race.
  destruct (fp_protect toy toy_al f [IoBuf [1]] []) as [[[[fp st1] bs1] gs1]|u|]; try discriminate.
  destruct st1; try discriminate.
  destruct (fp_unprotect toy BoringSSL toy_al f [IoBuf (ku_record AES_128_GCM_SHA256)] []) as [[[[fu st2] bs2] gs2]|u|];
    try discriminate.
  destruct st2; try discriminate.
  exists fp, bs1, gs1, fu, bs2, gs2.
  split. { split; [exact toy_ok|]. split; [exact toy_al_ok|]. split; [reflexivity|]. split; [reflexivity|]. split; [constructor|].
           exists f, [], fs. split; [exact Ec|reflexivity]. }
  split; [apply N.ltb_lt; vm_compute; reflexivity|]. split; [apply ku_ok|]. split; [reflexivity|]. split; [reflexivity|].
  destruct (both race _ _ (fp_crypt f)) as [y|[]|]; try discriminate. reflexivity.
Qed.

(* Application data: 30 steps of each call alternating, then the rest. *)
Definition weave : list bool := concat (repeat [true; false] 40).
Definition both_done {S A B} (o : outcome (S * prog S A * prog S B)) : bool :=
  match o with Done (_, Ret _, Ret _) => true | _ => false end.

Lemma case28 : forall lib s, exists f fu bs2 gs2, protector toy lib toy_al (fargs s) [] [] f /\
  fop_ok (FProtect [IoBuf [1; 2]; IoBuf [3]]) /\
  fp_unprotect toy lib toy_al f [IoBuf (from_peer s [[5]; [6; 7]])] [] = Done ((fu, kOk, bs2), gs2) /\
  map fb_bytes bs2 = [[5]; [6; 7]] /\
  both_done (both weave (fp_protect_c toy toy_al (heap_of f) [IoBuf [1; 2]; IoBuf [3]] [])
    (fp_unprotect_c toy lib toy_al (heap_of f) [IoBuf (from_peer s [[5]; [6; 7]])] []) (fp_crypt f)) = true.
Proof.
  intros lib s.
  assert (H : match fp_create toy lib (fargs s) [] with
    | Done (inr f, _) =>
      match fp_unprotect toy lib toy_al f [IoBuf (from_peer s [[5]; [6; 7]])] [] with
      | Done (_, kOk, bs2, _) =>
        match map fb_bytes bs2 with
        | [a; b] => bytes_eqb a [5] && bytes_eqb b [6; 7]
        | _ => false
        end &&
        both_done (both weave (fp_protect_c toy toy_al (heap_of f) [IoBuf [1; 2]; IoBuf [3]] [])
          (fp_unprotect_c toy lib toy_al (heap_of f) [IoBuf (from_peer s [[5]; [6; 7]])] []) (fp_crypt f))
      | _ => false
      end
    | _ => false end = true) by (destruct lib, s; vm_compute; reflexivity).
  destruct (fp_create toy lib (fargs s) []) as [[[c|f] fs]|u|] eqn:Ec; try discriminate.
  destruct (fp_unprotect toy lib toy_al f [IoBuf (from_peer s [[5]; [6; 7]])] []) as [[[[fu st2] bs2] gs2]|u|] eqn:Eu;
    try discriminate.
  destruct st2; try discriminate. exists f, fu, bs2, gs2. apply andb_prop in H. destruct H as [H1 H2].
  split. { split; [exact toy_ok|]. split; [exact toy_al_ok|]. split; [reflexivity|]. split; [reflexivity|]. split; [constructor|].
           exists f, [], fs. split; [exact Ec|reflexivity]. }
  split; [apply N.ltb_lt; vm_compute; reflexivity|]. split; [exact Eu|]. split; [|exact H2].
  destruct (map fb_bytes bs2) as [|x [|y [|]]]; try discriminate. apply andb_prop in H1. destruct H1 as [K1 K2].
  apply bytes_eqb_eq in K1. apply bytes_eqb_eq in K2. subst. reflexivity.
Qed.

(* ---- threads on one half connection ---- *)
Definition all_returned {S O Q R} (c : config S O Q R) : bool :=
  forallb (fun t => match unfinished t with [] => true | _ => false end) (cf_threads c).
Lemma all_returned_ok : forall S O Q R (c : config S O Q R), all_returned c = true -> finished c.
Proof.
  intros S O Q R c H. unfold all_returned in H. rewrite forallb_forall in H. apply Forall_forall.
  intros t Ht. specialize (H t Ht). destruct (unfinished t); [reflexivity|discriminate].
Qed.
Definition codess_eq_dec : forall x y : list (list code), {x = y} + {x <> y}.
Proof. repeat decide equality. Defined.

(* Two threads encrypt, a third updates the key. *)
Definition h_calls : list (list (hop * faults)) := [[(enc_op, []); (enc_op, [])]; [(enc_op, [])]; [(HUpdateKey, [])]].
Lemma h_calls_ok : Forall hops_ok h_calls.
Proof. repeat constructor; cbn; unfold small_iov, two64; cbn; lia. Qed.
Definition round_robin : list nat := concat (repeat [0; 1; 2]%nat 30).
(* Thread, result and key number of the nonces, in the order of use. *)
Lemma case29_half : forall lib s, exists h rs (c : h_threads),
  hreach toy lib s 7 (secret_for s) good_ops rs h /\ Forall hops_ok h_calls /\
  trun h_pre (h_body toy lib) (tstart h h_calls) round_robin = Done c /\ finished c /\
  map (fun t => map hstatus (th_done t)) (cf_threads c) = [[kOk; kOk]; [kOk]; [kOk]] /\
  map fst (skipn 3 (hc_used (cf_mem c))) = [1; 1; 2].
Proof.
  intros lib s.
  destruct (hplay_check lib s 7 good_ops (fun h rs =>
     match trun h_pre (h_body toy lib) (tstart h h_calls) round_robin with
     | Done c => all_returned c &&
         tests (codess_eq_dec (map (fun t => map hstatus (th_done t)) (cf_threads c)) [[kOk; kOk]; [kOk]; [kOk]]) &&
         bytes_eqb (map fst (skipn 3 (hc_used (cf_mem c)))) [1; 1; 2]
     | _ => false end)) as (h & rs & R & H); [destruct lib, s; vm_compute; reflexivity|].
  exists h, rs.
  destruct (trun h_pre (h_body toy lib) (tstart h h_calls) round_robin) as [c|u|]; try discriminate.
  exists c. split; [exact R|]. split; [exact h_calls_ok|]. split; [reflexivity|].
  apply andb_prop in H. destruct H as [H H3]. apply andb_prop in H. destruct H as [H1 H2].
  split; [apply all_returned_ok; exact H1|]. split; [apply tests_true in H2; exact H2|apply bytes_eqb_eq; exact H3].
Qed.

(* ---- threads on one crypter ---- *)
Definition x_calls : list (list (xop * faults)) :=
  [[(XProtect APPLICATION_DATA [IoBuf [1; 2]] (zeros 24), [])]; [(XProtect HANDSHAKE [IoBuf [3]] (zeros 5), []); (XProtect ALERT [IoBuf [1; 0]] (zeros 30), [])]].
Lemma x_calls_ok : Forall (Forall x_ok) x_calls.
Proof. repeat constructor; (do 3 eexists; split; [reflexivity|apply N.ltb_lt; vm_compute; reflexivity]). Qed.
Definition two_robin : list nat := concat (repeat [0; 1]%nat 100).

Lemma created : forall lib s (chk : crypt -> bool),
  match crypt_create toy lib (arg s) [] with Done (inr x, _) => chk x | _ => false end = true ->
  exists x, connection toy lib (arg s) [] [] x /\ chk x = true.
Proof.
  intros lib s chk H. destruct (crypt_create toy lib (arg s) []) as [[[c|x] fs]|u|] eqn:Ec; try discriminate.
  exists x. split; [|exact H]. split; [exact toy_ok|]. split; [reflexivity|]. split; [reflexivity|]. split; [constructor|].
  exists x, [], fs. split; [exact Ec|reflexivity].
Qed.

Definition xstatus (r : cres) : scode :=
  match r with CProtected st _ _ => st | CUnprotected st _ _ => st | CUpdated _ => S_OK end.
Definition scodess_eq_dec : forall x y : list (list scode), {x = y} + {x <> y}.
Proof. repeat decide equality. Defined.

Lemma case29_crypter : forall lib s, exists x (c : x_threads), connection toy lib (arg s) [] [] x /\
  Forall (Forall x_ok) x_calls /\
  trun x_pre (x_body toy lib) (tstart x x_calls) two_robin = Done c /\ finished c /\
  map (fun t => map xstatus (th_done t)) (cf_threads c) = [[S_OK]; [S_FAILED_PRECONDITION; S_OK]].
Proof.
  intros lib s.
  destruct (created lib s (fun x => match trun x_pre (x_body toy lib) (tstart x x_calls) two_robin with
     | Done c => all_returned c &&
         tests (scodess_eq_dec (map (fun t => map xstatus (th_done t)) (cf_threads c)) [[S_OK]; [S_FAILED_PRECONDITION; S_OK]])
     | _ => false end)) as (x & Hc & H); [destruct lib, s; vm_compute; reflexivity|].
  exists x. destruct (trun x_pre (x_body toy lib) (tstart x x_calls) two_robin) as [c|u|]; try discriminate.
  exists c. split; [exact Hc|]. split; [exact x_calls_ok|]. split; [reflexivity|].
  apply andb_prop in H. destruct H as [H1 H2]. split; [apply all_returned_ok; exact H1|apply tests_true in H2; exact H2].
Qed.

(* Protect loads the pointer of the outbound crypter in TagLength,
   UpdateOutboundKey replaces that crypter, Protect uses the pointer. *)
Definition u_calls : list (list (xop * faults)) :=
  [[(XProtect APPLICATION_DATA [IoBuf [1; 2]] (zeros 24), [])]; [(XUpdateOutboundKey, [])]].
Definition u_race : list nat := [0; 0; 0; 0; 1; 1; 1; 1; 1; 0]%nat.
Lemma R29 : exists P lib a x calls sched, connection P lib a [] [] x /\
  (forall i os, nth_error calls i = Some os -> exists y, x_run P lib x os = Done y) /\
  trun x_pre (x_body P lib) (tstart x calls) sched = Undef UbUseAfterFree.
Proof.
  destruct (created OpenSSL AES_256_GCM_SHA384 (fun x =>
     match trun x_pre (x_body toy OpenSSL) (tstart x u_calls) u_race with Undef UbUseAfterFree => true | _ => false end &&
     forallb (fun os => match x_run toy OpenSSL x os with Done _ => true | _ => false end) u_calls)) as (x & Hc & H);
    [vm_compute; reflexivity|].
  exists toy, OpenSSL, (arg AES_256_GCM_SHA384), x, u_calls, u_race. apply andb_prop in H. destruct H as [H1 H2].
  split; [exact Hc|]. split.
  - intros i os Hi. rewrite forallb_forall in H2. specialize (H2 os (nth_error_In _ _ Hi)).
    destruct (x_run toy OpenSSL x os) as [y|u|]; try discriminate. eauto.
  - destruct (trun _ _ _ u_race) as [y|[]|]; try discriminate. reflexivity.
Qed.

(* ---- threads on one frame protector ---- *)
Definition f_calls : list (list fcall) :=
  [[{| fc_input := [IoBuf [1; 2]; IoBuf [3]]; fc_id := 0; fc_faults := [] |}];
   [{| fc_input := [IoBuf [9; 9]]; fc_id := 1; fc_faults := [] |}; {| fc_input := []; fc_id := 2; fc_faults := [] |}]].
Lemma f_calls_ok : Forall (Forall f_ok) f_calls.
Proof. repeat constructor; (apply N.ltb_lt; vm_compute; reflexivity). Qed.

Lemma case29_frame : forall lib s, exists f (c : f_threads), protector toy lib toy_al (fargs s) [] [] f /\
  Forall (Forall f_ok) f_calls /\
  trun (f_pre toy_al) (f_body toy) (tstart (fp_crypt f) f_calls) two_robin = Done c /\
  finished c /\ map (fun t => map (fun r => fst (fst r)) (th_done t)) (cf_threads c) = [[kOk]; [kOk; kOk]].
Proof.
  intros lib s.
  assert (H : match fp_create toy lib (fargs s) [] with
    | Done (inr f, _) => match trun (f_pre toy_al) (f_body toy) (tstart (fp_crypt f) f_calls) two_robin with
       | Done c => all_returned c &&
           tests (codess_eq_dec (map (fun t => map (fun r : fresult => fst (fst r)) (th_done t)) (cf_threads c)) [[kOk]; [kOk; kOk]])
       | _ => false end
    | _ => false end = true) by (destruct lib, s; vm_compute; reflexivity).
  destruct (fp_create toy lib (fargs s) []) as [[[c|f] fs]|u|] eqn:Ec; try discriminate.
  exists f. destruct (trun _ _ _ two_robin) as [c|u|]; try discriminate. exists c.
  split. { split; [exact toy_ok|]. split; [exact toy_al_ok|]. split; [reflexivity|]. split; [reflexivity|]. split; [constructor|].
           exists f, [], fs. split; [exact Ec|reflexivity]. }
  split; [exact f_calls_ok|]. split; [reflexivity|].
  apply andb_prop in H. destruct H as [H1 H2]. split; [apply all_returned_ok; exact H1|apply tests_true in H2; exact H2].
Qed.
