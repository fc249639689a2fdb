(* Several threads calling Unprotect: proofs. *)
From Coq Require Import List NArith Bool Lia.
From Verif Require Import Base Aead Hkdf HalfConn SpecTls Options HsHandler Crypter CrypterRun FrameProt SpecFrame FrameRun
  HalfProofs CrypterProofs CrypterRunProofs FrameProofs FrameSim FrameFinal Conc ConcAlone ConcTag ConcBoth ConcRun ConcLinear
  ConcRead ConcReadMutex.
Import ListNotations.
Local Open Scope N_scope.

Section Reading.
Variables (P : prims) (lib : ssl_lib) (al : allocator) (a : create_args) (mx : N) (e0 : N).
Hypothesis HP : prims_ok P.
Hypothesis HA : alloc_ok al.

Definition rd_inv (x : crypt) : Prop := tag16 x /\ e0 <= epoch_in x.
Definition rd_good (x : crypt) : Prop := exists d, cx_winv P a x d.
Definition rd_le (x y : crypt) : Prop := epoch_in x <= epoch_in y.
Definition rd_racy (u : ub) (x : crypt) : Prop := u = UbUseAfterFree /\ e0 < epoch_in x.

Lemma rd_le_refl : forall x, rd_le x x.
Proof. intro x. apply N.le_refl. Qed.
Lemma rd_le_trans : forall x y z, rd_le x y -> rd_le y z -> rd_le x z.
Proof. unfold rd_le. intros. lia. Qed.
Lemma rd_racy_le : forall u x y, rd_racy u x -> rd_le x y -> rd_racy u y.
Proof. unfold rd_racy, rd_le. intros u x y [A B] H. split; [exact A|lia]. Qed.

Lemma inbound_grows : forall A (p : prog crypt A), inbound p -> grows rd_inv rd_le p.
Proof.
  intros A p H. induction H as [r|B f k [_ F] Hk IH]; cbn [grows]; [exact I|]. split; [|exact IH].
  intros x x' b [T E] Ef. destruct (F _ _ _ Ef) as [L T']. split; [exact L|]. split; [auto|]. unfold epoch_in in *. lia.
Qed.

Lemma r_body_inbound : forall q, inbound (r_body P lib al q).
Proof.
  intros [ov o]. unfold r_body. destruct (total_len (fc_input o) <? ov); [constructor|].
  apply inbound_bind; [apply inbound_loop|]. intros [[[m st] bs] fs]. constructor.
Qed.

Definition r_req (o : fcall) : rreq := (22, {| fc_input := fc_input o; fc_id := fc_id o; fc_faults := fc_faults o |}).

Lemma r_pre_calm : forall o x, rd_inv x -> calm rd_inv rd_le rd_racy x (r_pre o) (r_req o).
Proof.
  intros o x HI. unfold r_pre, overhead_c, tag_in, cbind, act, cret. cbn [pbind calm load_in].
  intros y Ly [Ty Ey]. split; [reflexivity|]. rewrite (tag16_load y Ty). intros z Lz [Tz Ez].
  unfold use_in, use_tag. destruct (N.eqb_spec (epoch_in y) (hc_epoch (cx_in z))) as [K|K].
  - unfold tag16 in Tz. rewrite Tz. cbn [obind]. split; reflexivity.
  - cbn [obind]. split; [reflexivity|]. unfold rd_le, epoch_in in *. lia.
Qed.

Lemma r_alone : forall o x, tag16 x -> alone (r_body P lib al (r_req o)) x = r_step P lib al mx x o.
Proof.
  intros o x T. unfold r_step. 
  pose proof (unprotect_alone P lib al mx {| hp_next := fc_id o; hp_events := [] |} (fc_input o) (fc_faults o) x) as E.
  unfold fp_unprotect_c in E. rewrite alone_cbind, overhead_alone in E. unfold record_overhead in E. unfold tag16 in T. rewrite T in E.
  change (join mx {| hp_next := fc_id o; hp_events := [] |} x) with
    {| fp_crypt := x; fp_max := mx; fp_next := fc_id o; fp_events := [] |} in E.
  cbn [obind] in E. change (kTlsRecordHeaderSize + 1 + 16) with 22 in E.
  unfold r_body, r_req. cbn [fc_input fc_id fc_faults].
  destruct (total_len (fc_input o) <? 22).
  - rewrite alone_cret in E.
    destruct (fp_unprotect P lib al _ _ _) as [[[[f st] bs] gs]|u|]; cbn [obind] in *; try discriminate.
    cbn [alone]. injection E; intros; subst.
    match goal with H : [] = fp_events f |- _ => rewrite <- H end. reflexivity.
  - rewrite alone_pbind, E.
    destruct (fp_unprotect P lib al _ _ _) as [[[[f st] bs] gs]|u|]; reflexivity.
Qed.

Lemma r_fine : forall o x, r_ok o -> rd_good x -> fine rd_good (r_step P lib al mx x o).
Proof.
  intros o x Ho (d & W). unfold r_step.
  set (f0 := {| fp_crypt := x; fp_max := mx; fp_next := fc_id o; fp_events := [] |}).
  pose proof (unprotect_spec P lib al a f0 (fc_input o) d (fc_faults o) HP HA W Ho) as K.
  pose proof (fstep_sim P lib al a f0 (FUnprotect (fc_input o)) (fc_faults o)) as K2. cbn [fstep] in K2.
  destruct (fp_unprotect P lib al f0 (fc_input o) (fc_faults o)) as [[[[f st] bs] gs]|u|]; cbn [obind fine]; auto.
  destruct (K2 _ _ d HP HA W Ho eq_refl) as (ops & rs & E & Hok & _).
  eapply crun_tx; eassumption.
Qed.

Lemma rd_ready : forall o, r_ok o -> exists q,
  (forall x, rd_inv x -> calm rd_inv rd_le rd_racy x (r_pre o) q) /\
  prepared (r_body P lib al) (r_step P lib al mx) rd_inv rd_good rd_le o q.
Proof.
  intros o Ho. exists (r_req o). split; [apply r_pre_calm|]. split; [apply inbound_grows, r_body_inbound|].
  intros x Hg. split; [|apply r_fine; assumption]. symmetry. apply r_alone.
  destruct Hg as (d & W). destruct (cw_in _ _ _ _ W) as (din & Ri & _). exact (half_tag_spec _ _ _ Ri).
Qed.
End Reading.

Lemma readers_linear : forall P lib al a ops rs f calls, protector P lib al a ops rs f -> Forall (Forall r_ok) calls ->
  forall sched1 sched2,
  match trun r_pre (r_body P lib al) (tstart (fp_crypt f) calls : r_threads) sched1 with
  | Done c1 =>
    exists l1, explains (seq_run (r_step P lib al (fp_max f))) (fp_crypt f) calls c1 l1 /\
    match trun r_pre (r_body P lib al) c1 sched2 with
    | Done c2 => exists l2, explains (seq_run (r_step P lib al (fp_max f))) (fp_crypt f) calls c2 (l1 ++ l2)
    | Undef u => excused P lib al (fp_max f) (fp_crypt f) calls u
    | NoFuel => False
    end /\
    exists sched3,
    match trun r_pre (r_body P lib al) c1 sched3 with
    | Done c3 => finished c3
    | Undef u => excused P lib al (fp_max f) (fp_crypt f) calls u
    | NoFuel => False
    end
  | Undef u => excused P lib al (fp_max f) (fp_crypt f) calls u
  | NoFuel => False
  end.
Proof.
  intros P lib al a ops rs f calls Hp Hc sched1 sched2. pose proof Hp as (HP & HA & _).
  destruct (protector_winv _ _ _ _ _ _ _ Hp) as (d & din & W & Ro & Ri).
  pose proof (racy_linear r_pre (r_body P lib al) (r_step P lib al (fp_max f)) (rd_inv (epoch_in (fp_crypt f)))
    (rd_good P (c_args a)) r_ok rd_le (rd_racy (epoch_in (fp_crypt f))) rd_le_refl rd_le_trans (rd_racy_le _)
    (rd_ready P lib al (c_args a) (fp_max f) _ HP HA) (fp_crypt f) calls (ex_intro _ d W)
    (conj (half_tag_spec _ _ _ Ri) (N.le_refl _)) Hc sched1 sched2) as H.
  assert (X : forall u, excuse (r_step P lib al (fp_max f)) (rd_racy (epoch_in (fp_crypt f))) (fp_crypt f) calls u ->
    excused P lib al (fp_max f) (fp_crypt f) calls u).
  { intros u (ps & D & K). exists ps. split; [exact D|].
    destruct (seq_run (r_step P lib al (fp_max f)) (fp_crypt f) (map snd ps)) as [[x' r]|v|]; [exact K| |exact K].
    destruct K as [K|(s & K & _)]; auto. }
  unfold r_threads in *.
  destruct (trun r_pre (r_body P lib al) (tstart (fp_crypt f) calls) sched1) as [c1|u|]; auto.
  destruct H as (l1 & H1 & H2 & sc3 & H3). exists l1. split; [exact H1|]. split.
  - destruct (trun r_pre (r_body P lib al) c1 sched2) as [c2|u|]; auto.
  - exists sc3. destruct (trun r_pre (r_body P lib al) c1 sc3) as [c2|u|]; auto.
Qed.

(* ---- the race ---- *)
(* Thread 1, alone, from the beginning of its call to the end of it. *)
Lemma run_body_alone : forall P lib al p (c : r_threads) t o i x' r,
  nth_error (cf_threads c) i = Some t -> th_doing t = Inside o p -> alone p (cf_mem c) = Done (x', r) ->
  exists n t', trun r_pre (r_body P lib al) c (repeat i n) = Done (Build_config x' None (set_nth i t' (cf_threads c))).
Proof.
  intros P lib al p. induction p as [r'|B f k IH]; intros c t o i x' r Hi Ed E.
  - cbn in E. injection E as <- <-. exists 1%nat. eexists. cbn [repeat trun]. unfold tstep. rewrite Hi, Ed. reflexivity.
  - cbn [alone] in E. destruct (f (cf_mem c)) as [[s b]|u|] eqn:F; cbn [obind] in E; try discriminate.
    edestruct (IH b (Build_config s (cf_owner c) (set_nth i (Build_thread (th_todo t) (Inside o (k b)) (th_done t)) (cf_threads c))))
      as (n & t' & K); [cbn; eapply nth_set_same; eassumption|reflexivity|exact E|].
    exists (S n), t'. cbn [repeat trun]. unfold tstep at 1. rewrite Hi, Ed, F. cbn [obind]. rewrite K. cbn [cf_threads].
    rewrite set_nth_twice. reflexivity.
Qed.

(* Whenever a call installs a new key there is a schedule in which another call
   made at the same time uses the freed object. *)
Lemma readers_race : forall P lib al a ops rs f, protector P lib al a ops rs f ->
  forall o o' ws rds x' r, r_step P lib al (fp_max f) (fp_crypt f) o = Done (x', r) ->
  hc_epoch (cx_in (fp_crypt f)) <> hc_epoch (cx_in x') ->
  exists sched, trun r_pre (r_body P lib al) (tstart (fp_crypt f) [o' :: ws; o :: rds] : r_threads) sched = Undef UbUseAfterFree.
Proof.
  intros P lib al a ops rs f Hp o o' ws rds x' r E Ne.
  destruct (protector_winv _ _ _ _ _ _ _ Hp) as (d & din & W & Ro & Ri).
  pose proof (half_tag_spec _ _ _ Ri : tag16 (fp_crypt f)) as T. pose proof (tag16_load _ T) as L.
  rewrite <- (r_alone P lib al (fp_max f) o _ T) in E.
  assert (U : use_in (Some (epoch_in (fp_crypt f))) (fp_crypt f) = Done (fp_crypt f, 16)).
  { unfold use_in, use_tag, epoch_in. rewrite N.eqb_refl. unfold tag16 in T. rewrite T. reflexivity. }
  set (t0 := Build_thread ws (Before o' (Step (use_in (Some (epoch_in (fp_crypt f))))
    (fun b => pbind (pbind (Ret (b, fc_faults o')) (fun '(t, fs) => Ret (kTlsRecordHeaderSize + 1 + t, fs)))
       (fun '(ov, fs) => Ret (ov, {| fc_input := fc_input o'; fc_id := fc_id o'; fc_faults := fs |}))))) [] : thread crypt fcall rreq fresult).
  set (t1 := Build_thread rds (Inside o (r_body P lib al (r_req o))) [] : thread crypt fcall rreq fresult).
  assert (A : trun r_pre (r_body P lib al) (tstart (fp_crypt f) [o' :: ws; o :: rds] : r_threads) [0%nat; 0%nat; 1%nat; 1%nat; 1%nat; 1%nat; 1%nat] =
    Done (Build_config (fp_crypt f) (Some 1%nat) [t0; t1])).
  { unfold tstart. cbn [map trun]. unfold tstep, r_pre, overhead_c, tag_in, cbind, act, cret.
    cbn -[r_body load_tag use_in]. rewrite !L. cbn -[r_body load_tag use_in]. rewrite U.
    cbn -[r_body load_tag use_in]. reflexivity. }
  destruct (run_body_alone P lib al (r_body P lib al (r_req o)) (Build_config (fp_crypt f) (Some 1%nat) [t0; t1]) t1 o 1%nat x' r eq_refl eq_refl E)
    as (n & t' & K).
  exists ([0; 0; 1; 1; 1; 1; 1]%nat ++ repeat 1%nat n ++ [0%nat]).
  rewrite trun_app, A. cbn [obind]. rewrite trun_app, K. cbn [obind trun set_nth cf_threads].
  unfold tstep, t0. cbn [cf_threads nth_error th_doing cf_mem]. unfold use_in, use_tag.
  destruct (N.eqb_spec (epoch_in (fp_crypt f)) (hc_epoch (cx_in x'))) as [Q|Q]; [contradiction|]. reflexivity.
Qed.
