(* Threads that call Protect and Unprotect: proofs. *)
From Coq Require Import List NArith Bool Lia.
From Verif Require Import Base BaseProofs Aead Hkdf HalfConn SpecTls HalfRun HalfRunProofs Options HsHandler Crypter CrypterRun FrameProt SpecFrame FrameRun
  HalfProofs CrypterProofs CrypterRunProofs FrameProofs FrameSim FrameFinal Conc ConcAlone ConcTag ConcBoth ConcRun ConcLinear
  ConcInst2 ConcRead ConcReadMutex ConcReadProofs ConcMix ConcMixMutex.
Import ListNotations.
Local Open Scope N_scope.

Lemma calm_map : forall S A B Inv le racy (F : A -> B) (p : prog S A) s q,
  calm Inv le racy s p q -> calm Inv le racy s (pbind p (fun q => Ret (F q))) (F q).
Proof.
  intros S A B Inv le racy F p. induction p as [q'|C f k IH]; intros s q H; cbn [calm pbind] in *; [congruence|].
  intros y L I. specialize (H y L I). destruct (f y) as [[y' b]|u|]; auto. destruct H as [E H]. split; [exact E|]. apply IH, H.
Qed.

Section Mixing.
Variables (P : prims) (lib : ssl_lib) (al : allocator) (a : create_args) (mx : N) (e0 : N).
Hypothesis HP : prims_ok P.
Hypothesis HA : alloc_ok al.

Lemma good_tag : forall x, rd_good P a x -> tag16 x.
Proof. intros x (d & W). destruct (cw_in _ _ _ _ W) as (din & Ri & _). exact (half_tag_spec _ _ _ Ri). Qed.

Lemma f_pre_calm : forall o, exists q,
  (forall x, rd_inv e0 x -> calm (rd_inv e0) rd_le (rd_racy e0) x (f_pre al o) q) /\
  (forall x, tag16 x -> alone (f_pre al o) x = Done (x, q)).
Proof.
  intros o. eexists. split.
  - intros x HI. unfold f_pre, number_bytes_c, cbind.
    unfold overhead_c, tag_in, cbind, act, cret. cbn [pbind calm load_in].
    intros y Ly [Ty Ey]. split; [reflexivity|]. rewrite (tag16_load y Ty). intros z Lz [Tz Ez].
    unfold use_in, use_tag. destruct (N.eqb_spec (epoch_in y) (hc_epoch (cx_in z))) as [K|K].
    + unfold tag16 in Tz. rewrite Tz. cbn [obind]. split; [reflexivity|]. cbn [pbind calm hp_alloc]. reflexivity.
    + cbn [obind]. split; [reflexivity|]. unfold rd_le, epoch_in in *. lia.
  - intros x T. unfold f_pre, number_bytes_c, overhead_c, tag_in, cbind, act, cret. cbn [pbind].
    rewrite (load_use x _ _ T). reflexivity.
Qed.

Lemma into_outbound : forall m input id out, outboundC (fp_protect_into_c P m input id out).
Proof.
  intros. unfold fp_protect_into_c. destruct out.
  - apply outbound_cbind; [apply outbound_loop|]. intros [[m1 st] b]. apply outbound_cret.
  - apply outbound_cbind; [apply outbound_own|]. intros [chunk c].
    apply outbound_cbind; [apply outbound_crypt_protect|]. intros [[st n1] o]. apply outbound_cret.
Qed.

Lemma f_fine : forall o x, f_ok o -> rd_good P a x -> fine (rd_good P a) (f_step P al mx x o).
Proof.
  intros o x Ho (d & W). unfold f_step. destruct (cw_in _ _ _ _ W) as (din & Ri & _).
  destruct (protect_spec P lib al {| fp_crypt := x; fp_max := mx; fp_next := fc_id o; fp_events := [] |} (fc_input o) (fc_faults o)
              din d HP HA Ri (cw_out _ _ _ _ W) Ho)
    as (h' & st & bufs & fs' & cops & crs & k & A & B1 & B2 & _). cbn zeta in A. cbn [fp_crypt] in *.
  rewrite A. cbn [obind fine fp_crypt].
  pose proof (crun_weak P lib a cops x d HP W B2) as K. rewrite B1 in K. cbn [safe] in K. destruct K as (W' & _). eexists. exact W'.
Qed.

Lemma into_fine : forall o buf x, f_ok o -> rd_good P a x -> fine (rd_good P a) (m_step P lib al mx x (MProtectInto o buf)).
Proof.
  intros o buf x Ho (d & W). cbn [m_step]. destruct (cw_in _ _ _ _ W) as (din & Ri & _).
  destruct (protect_into_spec P lib {| fp_crypt := x; fp_max := mx; fp_next := fc_id o; fp_events := [] |} (fc_input o) (fc_id o) buf (fc_faults o)
              din d HP Ri (cw_out _ _ _ _ W))
    as (h' & st & bufs & fs' & cops & crs & k & A & B1 & B2 & _).
  { unfold f_ok, protected_size in Ho. lia. }
  cbn zeta in A. cbn [fp_crypt] in *. rewrite A. cbn [obind fine].
  pose proof (crun_weak P lib a cops x d HP W B2) as K. rewrite B1 in K. cbn [safe] in K. destruct K as (W' & _).
  destruct (is_ok st); eexists; exact W'.
Qed.

Lemma fine_map : forall A B Good (F : A -> B) (o : outcome (crypt * A)), fine Good o ->
  fine Good (obind o (fun '(x, r) => Done (x, F r))).
Proof. intros A B Good F [[x r]|u|] H; exact H. Qed.

Lemma m_ready : forall o, m_ok o -> exists q,
  (forall x, rd_inv e0 x -> calm (rd_inv e0) rd_le (rd_racy e0) x (m_pre al o) q) /\
  mprep m_lock (m_body P lib al) (m_step P lib al mx) (rd_good P a) o q.
Proof.
  intros [o|o buf|o] Ho; cbn [m_ok m_pre] in *.
  - destruct (f_pre_calm o) as (q & Hq & Aq). exists (QProtect q). split; [intros x HI; apply calm_map, Hq, HI|]. split.
    + cbn [side m_lock m_body]. apply outbound_bind; [|intro; constructor]. unfold f_body.
      apply outbound_bind; [apply into_outbound|]. intros [r fs]. destruct (finish_protect _ r) as [[m st] bs]. constructor.
    + intros x Hg. cbn [m_step m_body]. split; [|apply fine_map, f_fine; assumption].
      rewrite alone_pbind. pose proof (f_alone P al mx o x) as E. rewrite alone_pbind, (Aq _ (good_tag _ Hg)) in E. cbn [obind] in E.
      rewrite E. destruct (f_step P al mx x o) as [[x' r]|u|]; reflexivity.
  - exists (QProtectInto o buf). split; [reflexivity|]. split.
    + cbn [side m_lock m_body]. apply outbound_bind; [apply into_outbound|]. intros [[[m st] out] fs]. constructor.
    + intros x Hg. split; [|apply into_fine; assumption]. cbn [m_step m_body].
      rewrite alone_pbind, (protect_into_alone P mx).
      change (join mx {| hp_next := fc_id o; hp_events := [] |} x) with
        {| fp_crypt := x; fp_max := mx; fp_next := fc_id o; fp_events := [] |}.
      destruct (fp_protect_into P _ _ _ _ _) as [[[[f st] out] fs]|u|]; reflexivity.
  - exists (QUnprotect (r_req o)). split; [intros x HI; apply calm_map, r_pre_calm, HI|]. split.
    + cbn [side m_lock m_body]. apply inbound_bind; [apply r_body_inbound|intro; constructor].
    + intros x Hg. cbn [m_step m_body]. split; [|apply fine_map, (r_fine P lib al a mx HP HA); assumption].
      rewrite alone_pbind, (r_alone P lib al mx o x (good_tag _ Hg)).
      destruct (r_step P lib al mx x o) as [[x' r]|u|]; reflexivity.
Qed.
End Mixing.

Notation mgo P lib al := (mrun m_lock (m_pre al) (m_body P lib al)).

Lemma threads_linear : forall P lib al a ops rs f calls, protector P lib al a ops rs f -> Forall (Forall m_ok) calls ->
  forall sched1 sched2,
  match mgo P lib al (mstart (fp_crypt f) calls : m_threads) sched1 with
  | Done c1 =>
    exists l1, m_explains (seq_run (m_step P lib al (fp_max f))) (fp_crypt f) calls c1 l1 /\
    match mgo P lib al c1 sched2 with
    | Done c2 => exists l2, m_explains (seq_run (m_step P lib al (fp_max f))) (fp_crypt f) calls c2 (l1 ++ l2)
    | Undef u => m_excused P lib al (fp_max f) (fp_crypt f) calls u
    | NoFuel => False
    end /\
    exists sched3,
    match mgo P lib al c1 sched3 with
    | Done c3 => m_finished c3
    | Undef u => m_excused P lib al (fp_max f) (fp_crypt f) calls u
    | NoFuel => False
    end
  | Undef u => m_excused P lib al (fp_max f) (fp_crypt f) calls u
  | NoFuel => False
  end.
Proof.
  intros P lib al a ops rs f calls Hp Hc sched1 sched2. pose proof Hp as (HP & HA & _).
  destruct (protector_winv _ _ _ _ _ _ _ Hp) as (d & din & W & Ro & Ri).
  pose proof (mixed_linear m_lock (m_pre al) (m_body P lib al) (m_step P lib al (fp_max f)) (rd_good P (c_args a)) m_ok
    (epoch_in (fp_crypt f)) (good_tag P (c_args a)) (m_ready P lib al (c_args a) (fp_max f) _ HP HA) (fp_crypt f) calls (ex_intro _ d W)
    (conj (half_tag_spec _ _ _ Ri) (N.le_refl _)) Hc sched1 sched2) as H.
  assert (X : forall u, mexcuse (m_step P lib al (fp_max f)) (epoch_in (fp_crypt f)) (fp_crypt f) calls u ->
    m_excused P lib al (fp_max f) (fp_crypt f) calls u).
  { intros u (ps & D & K). exists ps. split; [exact D|].
    destruct (seq_run (m_step P lib al (fp_max f)) (fp_crypt f) (map snd ps)) as [[x' r]|v|]; [exact K| |exact K].
    destruct K as [K|(s & K & _)]; auto. }
  unfold m_threads in *.
  destruct (mgo P lib al (mstart (fp_crypt f) calls) sched1) as [c1|u|]; auto.
  destruct H as (l1 & H1 & H2 & sc3 & H3). exists l1. split; [exact H1|]. split.
  - destruct (mgo P lib al c1 sched2) as [c2|u|]; auto.
  - exists sc3. destruct (mgo P lib al c1 sc3) as [c2|u|]; auto.
Qed.

(* When no call installs a new key, whatever the order, and none has undefined behaviour. *)
Lemma threads_linear_calm : forall P lib al a ops rs f calls, protector P lib al a ops rs f -> Forall (Forall m_ok) calls ->
  (forall ps, drawn calls ps -> exists x' r, seq_run (m_step P lib al (fp_max f)) (fp_crypt f) (map snd ps) = Done (x', r) /\
     hc_epoch (cx_in x') = hc_epoch (cx_in (fp_crypt f))) ->
  forall sched1 sched2, exists (c1 c2 : m_threads) l1 l2,
    mgo P lib al (mstart (fp_crypt f) calls) sched1 = Done c1 /\
    mgo P lib al c1 sched2 = Done c2 /\
    m_explains (seq_run (m_step P lib al (fp_max f))) (fp_crypt f) calls c1 l1 /\
    m_explains (seq_run (m_step P lib al (fp_max f))) (fp_crypt f) calls c2 (l1 ++ l2) /\
    exists sched3 c3, mgo P lib al c1 sched3 = Done c3 /\ m_finished c3.
Proof.
  intros P lib al a ops rs f calls Hp Hc Hk sched1 sched2.
  assert (X : forall u, ~ m_excused P lib al (fp_max f) (fp_crypt f) calls u).
  { intros u (ps & D & K). destruct (Hk _ D) as (x' & r & E & N). rewrite E in K. destruct K as [_ K]. lia. }
  pose proof (threads_linear P lib al a ops rs f calls Hp Hc sched1 sched2) as H.
  destruct (mgo P lib al (mstart (fp_crypt f) calls : m_threads) sched1) as [c1|u|]; [|destruct (X _ H)|destruct H].
  destruct H as (l1 & H1 & H2 & sc3 & H3).
  destruct (mgo P lib al c1 sched2) as [c2|u|] eqn:E2; [|destruct (X _ H2)|destruct H2]. destruct H2 as [l2 H2].
  destruct (mgo P lib al c1 sc3) as [c3|u|] eqn:E3; [|destruct (X _ H3)|destruct H3].
  exists c1, c2, l1, l2. repeat (split; [first [reflexivity|eassumption]|]). eauto.
Qed.

(* ---- the race, with both mutexes held ---- *)
Lemma m_body_alone : forall P lib al p (c : m_threads) t o i x' r,
  nth_error (mc_threads c) i = Some t -> th_doing t = Inside o p -> m_lock o = false -> alone p (mc_mem c) = Done (x', r) ->
  exists n t', mgo P lib al c (repeat i n) = Done (Build_mconfig x' (mc_writer c) None (set_nth i t' (mc_threads c))).
Proof.
  intros P lib al p. induction p as [r'|B f k IH]; intros c t o i x' r Hi Ed L E.
  - cbn in E. injection E as <- <-. exists 1%nat. eexists. cbn [repeat mrun]. unfold mstep. rewrite Hi, Ed, L. reflexivity.
  - cbn [alone] in E. destruct (f (mc_mem c)) as [[s b]|u|] eqn:F; cbn [obind] in E; try discriminate.
    edestruct (IH b (Build_mconfig s (mc_writer c) (mc_reader c) (set_nth i (Build_thread (th_todo t) (Inside o (k b)) (th_done t)) (mc_threads c))))
      as (n & t' & K); [cbn; eapply nth_set_same; eassumption|reflexivity|exact L|exact E|].
    exists (S n), t'. cbn [repeat mrun]. unfold mstep at 1. rewrite Hi, Ed, F. cbn [obind]. rewrite K. cbn [mc_threads mc_writer].
    rewrite set_nth_twice. reflexivity.
Qed.

Lemma use_now : forall x, tag16 x -> use_in (Some (epoch_in x)) x = Done (x, 16).
Proof. intros x T. unfold use_in, use_tag, epoch_in. rewrite N.eqb_refl. unfold tag16 in T. rewrite T. reflexivity. Qed.

Lemma mrun_app' : forall P lib al s1 s2 (c : m_threads), mgo P lib al c (s1 ++ s2) = obind (mgo P lib al c s1) (fun c => mgo P lib al c s2).
Proof. intros. apply mrun_app. Qed.

(* Protect with nothing to send: its first two accesses. *)
Lemma into_first : forall P lib al n buf fs, exists B (f0 : crypt -> outcome (crypt * B)) b0 k0 k,
  m_body P lib al (QProtectInto {| fc_input := []; fc_id := n; fc_faults := fs |} buf) = Step f0 k0 /\
  (forall x, f0 x = Done (x, b0)) /\ k0 b0 = Step load_in (fun p => Step (use_in p) k).
Proof.
  intros. do 5 eexists. split; [reflexivity|]. split; [intro x; reflexivity|]. reflexivity.
Qed.

(* Whenever an Unprotect call installs a new key there is a moment when thread 0
   is inside Protect and thread 1 inside this Unprotect, each with its mutex,
   and a continuation in which Protect uses the freed object. *)
Lemma threads_race : forall P lib al a ops rs f, protector P lib al a ops rs f ->
  forall o n buf fs ws rds x' r, r_step P lib al (fp_max f) (fp_crypt f) o = Done (x', r) ->
  hc_epoch (cx_in (fp_crypt f)) <> hc_epoch (cx_in x') ->
  exists sched1 sched2 (c : m_threads),
    mgo P lib al (mstart (fp_crypt f)
      [MProtectInto {| fc_input := []; fc_id := n; fc_faults := fs |} buf :: ws; MUnprotect o :: rds]) sched1 = Done c /\
    mc_writer c = Some 0%nat /\ mc_reader c = Some 1%nat /\
    mgo P lib al c sched2 = Undef UbUseAfterFree.
Proof.
  intros P lib al a ops rs f Hp o n buf fs ws rds x' r E Ne.
  destruct (protector_winv _ _ _ _ _ _ _ Hp) as (d & din & W & Ro & Ri).
  pose proof (half_tag_spec _ _ _ Ri : tag16 (fp_crypt f)) as T. pose proof (tag16_load _ T) as L. pose proof (use_now _ T) as U.
  rewrite <- (r_alone P lib al (fp_max f) o _ T) in E.
  destruct (into_first P lib al n buf fs) as (B & f0 & b0 & k0 & k & E1 & E2 & E3).
  assert (A : mgo P lib al (mstart (fp_crypt f)
      [MProtectInto {| fc_input := []; fc_id := n; fc_faults := fs |} buf :: ws; MUnprotect o :: rds] : m_threads)
      ([0; 0; 0; 0; 0] ++ [1; 1; 1; 1; 1])%nat =
    Done (Build_mconfig (fp_crypt f) (Some 0%nat) (Some 1%nat)
      [Build_thread ws (Inside (MProtectInto {| fc_input := []; fc_id := n; fc_faults := fs |} buf)
                          (Step (use_in (Some (epoch_in (fp_crypt f)))) k)) [];
       Build_thread rds (Inside (MUnprotect o) (m_body P lib al (QUnprotect (r_req o)))) []])).
  { rewrite mrun_app'. unfold mstart. cbn [map mrun].
    unfold mstep at 1. cbn [nth_error mc_threads th_doing th_todo m_pre obind set_nth mc_mem mc_writer mc_reader th_done].
    unfold mstep at 1. cbn [nth_error mc_threads th_doing th_todo m_pre obind set_nth mc_mem mc_writer mc_reader th_done].
    unfold mstep at 1. cbn [nth_error mc_threads th_doing th_todo m_pre obind set_nth mc_mem mc_writer mc_reader th_done m_lock].
    rewrite E1.
    unfold mstep at 1. cbn [nth_error mc_threads th_doing th_todo obind set_nth mc_mem mc_writer mc_reader th_done m_lock].
    rewrite E2. cbn [obind]. rewrite E3.
    unfold mstep at 1. cbn [nth_error mc_threads th_doing th_todo obind set_nth mc_mem mc_writer mc_reader th_done m_lock].
    unfold load_in. rewrite L. cbn [obind].
    unfold mstep, m_pre, r_pre, overhead_c, tag_in, cbind, act, cret.
    cbn -[r_body load_tag use_in]. rewrite L. rewrite U. cbn -[r_body load_tag use_in]. reflexivity. }
  set (t1 := Build_thread rds (Inside (MUnprotect o) (m_body P lib al (QUnprotect (r_req o)))) [] : thread crypt mcall mreq mresult) in *.
  assert (E' : alone (m_body P lib al (QUnprotect (r_req o))) (fp_crypt f) = Done (x', MBuffers r)).
  { cbn [m_body]. rewrite alone_pbind, E. reflexivity. }
  match type of A with _ = Done ?c => 
    destruct (m_body_alone P lib al (m_body P lib al (QUnprotect (r_req o))) c t1 (MUnprotect o) 1%nat x' (MBuffers r) eq_refl eq_refl eq_refl E')
      as (m & t' & K);
    exists ([0; 0; 0; 0; 0] ++ [1; 1; 1; 1; 1])%nat, (repeat 1%nat m ++ [0%nat]), c end.
  split; [exact A|]. split; [reflexivity|]. split; [reflexivity|].
  rewrite mrun_app', K. cbn [obind mrun set_nth mc_threads mc_writer].
  unfold mstep. cbn [mc_threads nth_error th_doing mc_mem]. unfold use_in, use_tag.
  destruct (N.eqb_spec (epoch_in (fp_crypt f)) (hc_epoch (cx_in x'))) as [Q|Q]; [contradiction|]. reflexivity.
Qed.
