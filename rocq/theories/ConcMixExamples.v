(* Threads that call Protect and Unprotect: concrete cases. *)
From Coq Require Import List NArith ZArith Bool Lia ZifyBool ZifyNat ZifyN.
From Verif Require Import Base BaseProofs Aead SpecAead Hkdf HalfConn SpecTls Options HsHandler Crypter
  SpecRecord CrypterRun FrameProt SpecFrame FrameRun FrameRef Toy ToyProofs FrameExamples RecordExamples
  Conc ConcPair ConcRun ConcRefuted ConcPairExample ConcRead ConcReadExamples ConcMix ConcMixProofs.
Import ListNotations.
Local Open Scope N_scope.

(* Three threads: one sends and receives; one sends into its own buffers, the
   second of which is too small; one has too few bytes, and then sends. *)
Definition m_calls : list (list mcall) :=
  [[MProtect (r_call [1] 0); MUnprotect (r_call (from_peer S0 [[5]; [6; 7]]) 10)];
   [MProtectInto (r_call [2] 20) (zeros 23); MProtectInto (r_call [4] 30) (zeros 2)];
   [MUnprotect (r_call [23; 3; 3] 40); MProtect (r_call [3] 50)]].
Definition m_robin : list nat := concat (repeat [0; 1; 2]%nat 80).
Definition m_answer (r : mresult) : code * list bytes :=
  match r with
  | MBuffers (st, bs, _) => (st, map fb_bytes bs)
  | MWritten st out _ => (st, [iov_data out])
  end.
Definition m_answers (c : m_threads) : list (list (code * list bytes)) :=
  map (fun t => map m_answer (th_done t)) (mc_threads c).
Definition m_returned (c : m_threads) : bool :=
  forallb (fun t => match unfinished t with [] => true | _ => false end) (mc_threads c).

Lemma m_returned_ok : forall c, m_returned c = true -> m_finished c.
Proof.
  intros c H. apply Forall_forall. intros t Ht. pose proof (proj1 (forallb_forall _ _) H t Ht) as K. cbn in K.
  destruct (unfinished t); [reflexivity|discriminate].
Qed.

Definition sent (n : nat) (b : N) : bytes := tls_record toy (Nat.iter n dir_next (f_out (fargs S0))) 23 [b] 0.
Definition m_got : list (list (code * list bytes)) :=
  [[(kOk, [sent 2 1]); (kOk, [[5]; [6; 7]])];
   [(kOk, [sent 0 2]); (kFailedPrecondition, [[0; 0]])];
   [(kFailedPrecondition, []); (kOk, [sent 1 3])]].

Lemma r_call_ok : forall d id, (protected_size (lenN d + 0) <? two64) = true -> f_ok (r_call d id).
Proof. intros d id H. unfold f_ok, r_call. cbn [fc_input sum_lens iov_len]. lia. Qed.
Lemma m_calls_ok : Forall (Forall m_ok) m_calls.
Proof.
  repeat first [apply Forall_nil|apply Forall_cons].
  all: first [apply r_call_ok; vm_compute; reflexivity | apply unprotect_ok; [vm_compute; reflexivity|repeat constructor]].
Qed.

(* Two threads: one sends, the other receives. *)
Definition two_send : mcall := MProtect (r_call [1] 0).
Definition two_get : mcall := MUnprotect (r_call (from_peer S0 [[5]]) 10).
Definition two_calls : list (list mcall) := [[two_send]; [two_get]].
Lemma two_calls_ok : Forall (Forall m_ok) two_calls.
Proof.
  repeat first [apply Forall_nil|apply Forall_cons].
  all: first [apply r_call_ok; vm_compute; reflexivity | apply unprotect_ok; [vm_compute; reflexivity|repeat constructor]].
Qed.

Definition orders : list (list mcall) := [[]; [two_send]; [two_get]; [two_send; two_get]; [two_get; two_send]].
Lemma drawn_orders : forall ps, drawn two_calls ps -> In (map snd ps) orders.
Proof.
  intros ps [D1 D2]. destruct (D2 0%nat _ eq_refl) as [l0 E0]. destruct (D2 1%nat _ eq_refl) as [l1 E1]. clear D2.
  assert (K : forall p qs, ps = p :: qs -> fst p = 0%nat \/ fst p = 1%nat).
  { intros p qs ->. assert (H : (fst p < 2)%nat) by (apply D1; left; reflexivity). lia. }
  destruct ps as [|[i o] ps]; [left; reflexivity|].
  assert (K2 : forall p qs, ps = p :: qs -> fst p = 0%nat \/ fst p = 1%nat).
  { intros p qs ->. assert (H : (fst p < 2)%nat) by (apply D1; right; left; reflexivity). lia. }
  destruct (K _ _ eq_refl) as [H|H]; cbn [fst] in H; subst i; cbn in E0, E1.
  - injection E0 as <- E0.
    destruct ps as [|[j o2] ps]; [cbn; auto|].
    destruct (K2 _ _ eq_refl) as [H|H]; cbn [fst] in H; subst j; cbn in E0, E1; [discriminate|].
    injection E1 as <- E1. destruct ps as [|[m o3] ps]; [cbn; auto 10|].
    assert (H : (m < 2)%nat) by (apply (D1 (m, o3)); do 2 right; left; reflexivity).
    destruct m as [|[|m]]; cbn in E0, E1; try discriminate. lia.
  - injection E1 as <- E1.
    destruct ps as [|[j o2] ps]; [cbn; auto|].
    destruct (K2 _ _ eq_refl) as [H|H]; cbn [fst] in H; subst j; cbn in E0, E1; [|discriminate].
    injection E0 as <- E0. destruct ps as [|[m o3] ps]; [cbn; auto 10|].
    assert (H : (m < 2)%nat) by (apply (D1 (m, o3)); do 2 right; left; reflexivity).
    destruct m as [|[|m]]; cbn in E0, E1; try discriminate. lia.
Qed.

Definition keeps (f : fprot) (os : list mcall) : bool :=
  match seq_run (m_step toy OpenSSL toy_al (fp_max f)) (fp_crypt f) os with
  | Done (x', _) => hc_epoch (cx_in x') =? hc_epoch (cx_in (fp_crypt f))
  | _ => false
  end.

Lemma m_check :
  match fp_create toy OpenSSL (fargs S0) [] with
  | Done (inr f, _) =>
    match mrun m_lock (m_pre toy_al) (m_body toy OpenSSL toy_al) (mstart (fp_crypt f) m_calls : m_threads) m_robin with
    | Done c => m_returned c && tests (answers_dec (m_answers c) m_got)
    | _ => false
    end && forallb (keeps f) orders
  | _ => false
  end = true.
Proof. vm_compute. reflexivity. Qed.

Lemma case95 : exists f (c : m_threads), protector toy OpenSSL toy_al (fargs S0) [] [] f /\
  Forall (Forall m_ok) m_calls /\
  mrun m_lock (m_pre toy_al) (m_body toy OpenSSL toy_al) (mstart (fp_crypt f) m_calls) m_robin = Done c /\ m_finished c /\
  m_answers c =
    [[(kOk, [sent 2 1]); (kOk, [[5]; [6; 7]])];
     [(kOk, [sent 0 2]); (kFailedPrecondition, [[0; 0]])];
     [(kFailedPrecondition, []); (kOk, [sent 1 3])]] /\
  Forall (Forall m_ok) two_calls /\
  forall ps, drawn two_calls ps -> exists x' r,
    seq_run (m_step toy OpenSSL toy_al (fp_max f)) (fp_crypt f) (map snd ps) = Done (x', r) /\
    hc_epoch (cx_in x') = hc_epoch (cx_in (fp_crypt f)).
Proof.
  pose proof m_check as H.
  destruct (fp_create toy OpenSSL (fargs S0) []) as [[[c|f] fs]|u|] eqn:Ec; try discriminate.
  apply andb_prop in H. destruct H as [H H3].
  destruct (mrun m_lock (m_pre toy_al) (m_body toy OpenSSL toy_al) (mstart (fp_crypt f) m_calls : m_threads) m_robin) as [c|u|] eqn:Er;
    try discriminate.
  apply andb_prop in H. destruct H as [H1 H2]. apply tests_true in H2.
  exists f, c.
  split. { split; [exact toy_ok|]. split; [exact toy_al_ok|]. split; [reflexivity|]. split; [reflexivity|]. split; [constructor|].
           exists f, [], fs. split; [exact Ec|reflexivity]. }
  split; [exact m_calls_ok|]. split; [exact Er|]. split; [apply m_returned_ok; exact H1|]. split; [exact H2|].
  split; [exact two_calls_ok|]. intros ps D. apply drawn_orders in D.
  pose proof (proj1 (forallb_forall _ _) H3 _ D) as K. unfold keeps in K.
  destruct (seq_run (m_step toy OpenSSL toy_al (fp_max f)) (fp_crypt f) (map snd ps)) as [[x' r]|u|]; try discriminate.
  exists x', r. split; [reflexivity|]. apply N.eqb_eq. exact K.
Qed.

(* In the middle of it: two records are made, by the second and the third
   thread, and the third is still inside. *)
Definition m_half : list nat := firstn 60 m_robin.
Definition m_moment : bool :=
  match fp_create toy OpenSSL (fargs S0) [] with
  | Done (inr f, _) =>
    match mrun m_lock (m_pre toy_al) (m_body toy OpenSSL toy_al) (mstart (fp_crypt f) m_calls : m_threads) m_half with
    | Done c =>
      match mc_writer c with
      | Some i => Nat.eqb i 2 && Nat.eqb (length (hc_used (cx_out (mc_mem c)))) 2
      | None => false
      end
    | _ => false
    end
  | _ => false
  end.
Lemma m_moment_ok : m_moment = true.
Proof. vm_compute. reflexivity. Qed.

Lemma case95_nonces : exists f (c : m_threads), protector toy OpenSSL toy_al (fargs S0) [] [] f /\
  Forall (Forall m_ok) m_calls /\
  mrun m_lock (m_pre toy_al) (m_body toy OpenSSL toy_al) (mstart (fp_crypt f) m_calls) m_half = Done c /\
  mc_writer c = Some 2%nat /\ length (hc_used (cx_out (mc_mem c))) = 2%nat.
Proof.
  pose proof m_moment_ok as H. unfold m_moment in H.
  destruct (fp_create toy OpenSSL (fargs S0) []) as [[[c|f] fs]|u|] eqn:Ec; try discriminate.
  destruct (mrun m_lock (m_pre toy_al) (m_body toy OpenSSL toy_al) (mstart (fp_crypt f) m_calls : m_threads) m_half) as [c|u|] eqn:Er;
    try discriminate.
  destruct (mc_writer c) as [i|] eqn:Ew; [|discriminate]. apply andb_prop in H. destruct H as [H1 H2].
  apply PeanoNat.Nat.eqb_eq in H1, H2. subst i. exists f, c.
  split. { split; [exact toy_ok|]. split; [exact toy_al_ok|]. split; [reflexivity|]. split; [reflexivity|]. split; [constructor|].
           exists f, [], fs. split; [exact Ec|reflexivity]. }
  split; [exact m_calls_ok|]. split; [exact Er|]. split; [exact Ew|exact H2].
Qed.
