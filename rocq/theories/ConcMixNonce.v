(* Threads that call Protect and Unprotect: the nonces used, at every moment. *)
From Coq Require Import List NArith Bool Lia PeanoNat.
From Verif Require Import Base BaseProofs Aead Hkdf HalfConn SpecTls HalfRun HalfRunProofs Options HsHandler Crypter CrypterRun FrameProt SpecFrame FrameRun
  HalfProofs CrypterProofs CrypterRunProofs FrameProofs FrameSim FrameFinal Conc ConcAlone ConcTag ConcBoth ConcRun ConcLinear
  ConcInst ConcInst2 ConcRead ConcReadMutex ConcReadProofs ConcMix ConcMixMutex ConcMixProofs.
Import ListNotations.
Local Open Scope N_scope.

(* Whatever a program returns satisfies T. *)
Fixpoint returns {S A} (T : A -> Prop) (p : prog S A) : Prop :=
  match p with
  | Ret a => T a
  | Step f k => forall b, returns T (k b)
  end.
Lemma returns_bind : forall S A B (T : B -> Prop) (p : prog S A) (k : A -> prog S B),
  (forall a, returns T (k a)) -> returns T (pbind p k).
Proof. intros S A B T p k H. induction p as [a|C f k' IH]; cbn [pbind returns]; auto. Qed.

(* Every access of a program sends. *)
Fixpoint only_sends {A} (p : prog crypt A) : Prop :=
  match p with
  | Ret _ => True
  | Step f k => (forall x x1 b, f x = Done (x1, b) -> sends x x1) /\ forall b, only_sends (k b)
  end.
Lemma steps_only : forall A (p : prog crypt A), steps sends p -> only_sends p.
Proof. intros A p H. induction H; cbn; auto. Qed.
Lemma only_alone : forall A (p : prog crypt A), only_sends p -> forall x x' r, alone p x = Done (x', r) -> sends x x'.
Proof.
  intros A p. induction p as [a|B f k IH]; intros H x x' r E; cbn [alone only_sends] in *.
  - injection E as <- _. apply sends_refl.
  - destruct H as [Hf Hk]. destruct (f x) as [[x1 b]|u|] eqn:K; cbn [obind] in E; try discriminate.
    eapply sends_trans; [eapply Hf; exact K|eapply IH; [apply Hk|exact E]].
Qed.

(* A thread that is to take protect_mu_ runs a program that only sends. *)
Definition m_sends (P : prims) (lib : ssl_lib) (al : allocator) (d : activity crypt mcall mreq mresult) : Prop :=
  match d with
  | Idle => True
  | Before o p => m_lock o = true -> returns (fun q => only_sends (m_body P lib al q)) p
  | Waiting o q => m_lock o = true -> only_sends (m_body P lib al q)
  | Inside o p => m_lock o = true -> only_sends p
  end.

Lemma pre_sends : forall P lib al o, m_lock o = true -> returns (fun q => only_sends (m_body P lib al q)) (m_pre al o).
Proof.
  intros P lib al [o|o buf|o] L; [| |discriminate L]; cbn [m_pre].
  - apply returns_bind. intro q. cbn [returns m_body]. apply steps_only, steps_bind; [apply f_body_sends|]. intro r. apply ST_ret.
  - cbn [returns m_body]. apply steps_only, steps_bind; [apply into_sends|]. intros [[[m st] out] fs]. apply ST_ret.
Qed.

Lemma put_sends : forall P lib al (c : m_threads) i t' mem' w' r',
  (forall j u, nth_error (mc_threads c) j = Some u -> m_sends P lib al (th_doing u)) ->
  (i < length (mc_threads c))%nat -> m_sends P lib al (th_doing t') ->
  forall j u, nth_error (mc_threads (Build_mconfig mem' w' r' (set_nth i t' (mc_threads c)) : m_threads)) j = Some u ->
  m_sends P lib al (th_doing u).
Proof.
  intros P lib al c i t' mem' w' r' H Hi Ht j u Hj. cbn [mc_threads] in Hj. destruct (Nat.eq_dec i j) as [<-|Hne].
  - destruct (nth_error (mc_threads c) i) as [t|] eqn:E; [|apply nth_error_None in E; lia].
    rewrite (nth_set_same _ _ _ _ _ E) in Hj. injection Hj as <-. exact Ht.
  - rewrite nth_set_other in Hj by exact Hne. exact (H _ _ Hj).
Qed.

Lemma step_sends : forall P lib al (c c' : m_threads) i,
  (forall j u, nth_error (mc_threads c) j = Some u -> m_sends P lib al (th_doing u)) ->
  mstep m_lock (m_pre al) (m_body P lib al) c i = Done c' ->
  forall j u, nth_error (mc_threads c') j = Some u -> m_sends P lib al (th_doing u).
Proof.
  intros P lib al c c' i H E. unfold mstep in E. destruct (nth_error (mc_threads c) i) as [t|] eqn:Hi; [|injection E as <-; exact H].
  assert (Hl : (i < length (mc_threads c))%nat) by (apply nth_error_Some; congruence).
  pose proof (H _ _ Hi) as Ht. destruct (th_doing t) as [|o p|o q|o p] eqn:Ed.
  - destruct (th_todo t) as [|o r]; injection E as <-; [exact H|]. apply put_sends; auto. cbn. apply pre_sends.
  - destruct p as [q|B f k].
    + injection E as <-. apply put_sends; auto.
    + destruct (f (mc_mem c)) as [[s b]|v|]; cbn [obind] in E; try discriminate. injection E as <-. apply put_sends; auto.
      cbn. intro L. exact (Ht L b).
  - destruct (m_lock o) eqn:L.
    + destruct (mc_writer c); injection E as <-; [exact H|]. apply put_sends; auto.
    + destruct (mc_reader c); injection E as <-; [exact H|]. apply put_sends; auto.
  - destruct p as [q|B f k].
    + destruct (m_lock o); injection E as <-; apply put_sends; auto; exact I.
    + destruct (f (mc_mem c)) as [[s b]|v|]; cbn [obind] in E; try discriminate. injection E as <-. apply put_sends; auto.
      cbn. intro L. exact (proj2 (Ht L) b).
Qed.

Lemma run_sends : forall P lib al sched (c c' : m_threads),
  (forall j u, nth_error (mc_threads c) j = Some u -> m_sends P lib al (th_doing u)) ->
  mgo P lib al c sched = Done c' ->
  forall j u, nth_error (mc_threads c') j = Some u -> m_sends P lib al (th_doing u).
Proof.
  intros P lib al. induction sched as [|i sched IH]; intros c c' H E; cbn [mrun] in E; [injection E as <-; exact H|].
  destruct (mstep m_lock (m_pre al) (m_body P lib al) c i) as [c1|u|] eqn:K; cbn [obind] in E; try discriminate.
  eapply IH; [|exact E]. eapply step_sends; eassumption.
Qed.

Lemma start_sends : forall P lib al x calls j u, nth_error (mc_threads (mstart x calls : m_threads)) j = Some u ->
  m_sends P lib al (th_doing u).
Proof.
  intros P lib al x calls j u H. cbn in H. rewrite nth_error_map in H. destruct (nth_error calls j); [|discriminate].
  injection H as <-. exact I.
Qed.

(* What sends returns, whatever the state. *)
Lemma locked_done : forall P lib al a mx o x, prims_ok P -> alloc_ok al -> m_ok o -> m_lock o = true -> rd_good P a x ->
  exists x' r, m_step P lib al mx x o = Done (x', r) /\ rd_good P a x'.
Proof.
  intros P lib al a mx [o|o buf|o] x HP HA Ho L (d & W); [| |discriminate L]; cbn [m_ok m_step] in *;
    destruct (cw_in _ _ _ _ W) as (din & Ri & _).
  - destruct (protect_spec P lib al {| fp_crypt := x; fp_max := mx; fp_next := fc_id o; fp_events := [] |} (fc_input o) (fc_faults o)
              din d HP HA Ri (cw_out _ _ _ _ W) Ho)
      as (h' & st & bufs & fs' & cops & crs & k & A & B1 & B2 & _). cbn zeta in A. cbn [fp_crypt] in *.
    unfold f_step. rewrite A. cbn [obind fp_crypt]. do 2 eexists. split; [reflexivity|].
    pose proof (crun_weak P lib a cops x d HP W B2) as K. rewrite B1 in K. cbn [safe] in K. destruct K as (W' & _). eexists. exact W'.
  - destruct (protect_into_spec P lib {| fp_crypt := x; fp_max := mx; fp_next := fc_id o; fp_events := [] |} (fc_input o) (fc_id o) buf (fc_faults o)
              din d HP Ri (cw_out _ _ _ _ W))
      as (h' & st & bufs & fs' & cops & crs & k & A & B1 & B2 & _).
    { unfold f_ok, protected_size in Ho. lia. }
    cbn zeta in A. cbn [fp_crypt] in *. rewrite A. cbn [obind].
    pose proof (crun_weak P lib a cops x d HP W B2) as K. rewrite B1 in K. cbn [safe] in K. destruct K as (W' & _).
    destruct (is_ok st); do 2 eexists; (split; [reflexivity|]); eexists; exact W'.
Qed.

Lemma threads_in_order : forall P lib al a ops rs f calls, protector P lib al a ops rs f -> Forall (Forall m_ok) calls ->
  forall sched (c : m_threads), mgo P lib al (mstart (fp_crypt f) calls) sched = Done c ->
  in_order P (ca_suite (fa_crypt a)) (ca_out_seq (fa_crypt a)) (ca_out_secret (fa_crypt a)) (cx_out (mc_mem c)).
Proof.
  intros P lib al a ops rs f calls Hp Hc sched c E. pose proof Hp as (HP & HA & _).
  destruct (protector_winv _ _ _ _ _ _ _ Hp) as (d & din & W & Ro & Ri).
  pose proof (run_sends P lib al sched _ _ (start_sends P lib al (fp_crypt f) calls) E) as Hs.
  assert (H0 : minv m_lock (m_body P lib al) (m_step P lib al (fp_max f)) (rd_good P (c_args a)) m_ok (epoch_in (fp_crypt f))
    (fp_crypt f) calls (mstart (fp_crypt f) calls) []).
  { apply minv_start; [exists d; exact W| |exact Hc]. split; [exact (half_tag_spec _ _ _ Ri)|apply N.le_refl]. }
  pose proof (minv_run m_lock (m_pre al) (m_body P lib al) (m_step P lib al (fp_max f)) (rd_good P (c_args a)) m_ok
    (epoch_in (fp_crypt f)) (good_tag P (c_args a)) (m_ready P lib al (c_args a) (fp_max f) _ HP HA) sched (fp_crypt f) calls _ [] H0) as H.
  unfold m_threads in *. rewrite E in H. destruct H as [l H]. pose proof H as (s1 & H1 & HG & HI & Hw & Hr & Ow & Or & Hl & He & Ht).
  destruct (mc_writer c) as [i|] eqn:Ew.
  - assert (exists t o p, nth_error (mc_threads c) i = Some t /\ th_doing t = Inside o p /\ m_lock o = true)
      as (t & o & p & Hi & Ed & L).
    { eapply writer_inside; [exact (good_tag P (c_args a))|exact H|exact Ew]. }
    destruct (Ht _ _ Hi) as (_ & A2 & _ & A4). rewrite Ed in A4. cbn [mdoing] in A4. rewrite L in A4.
    destruct A4 as (_ & _ & q0 & q & Hq0 & St & Es).
    assert (Ho : m_ok o).
    { eapply (proj1 (Forall_forall _ _)); [eapply (proj1 (Forall_forall _ _) Hc); eapply nth_error_In; exact A2|].
      apply in_or_app. right. unfold unfinished. rewrite Ed. left. reflexivity. }
    destruct (locked_done P lib al (c_args a) (fp_max f) o s1 HP HA Ho L HG) as (x' & r & Ex & (d' & W')).
    pose proof (Hs _ _ Hi) as Sp. rewrite Ed in Sp. cbn in Sp. specialize (Sp L).
    assert (Sq : only_sends q).
    { destruct St as [_ [-> | (n & k & -> & -> & _)]]; [exact Sp|]. cbn in Sp. apply Sp. }
    rewrite Es in Ex. destruct (only_alone _ _ Sq _ _ _ Ex) as (_ & _ & X).
    eapply in_order_prefix; [exact X|]. exact (winv_order P (c_args a) _ _ W').
  - rewrite (Hw eq_refl). destruct HG as (d1 & W1). exact (winv_order P (c_args a) _ _ W1).
Qed.
