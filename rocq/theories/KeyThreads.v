(* Frame protectors and threads that are given no handshake record. *)
From Coq Require Import List NArith ZArith Bool Lia ZifyBool ZifyNat ZifyN.
From Verif Require Import Base BaseProofs Aead Hkdf HalfConn SpecTls HalfProofs HalfRun HalfRunProofs Options HsHandler Crypter SpecHs SpecRecord
  CrypterProofs CrypterRun CrypterRunProofs FrameProt SpecFrame FrameRun FrameRx FrameProofs FrameSim FrameFinal
  Conc ConcRun ConcTag ConcAlone ConcInst ConcInst2 ConcRead ConcReadMutex ConcReadProofs ConcMix ConcMixMutex ConcMixProofs ConcMixNonce
  SpecKeyChange KeyChange.
Import ListNotations.
Local Open Scope N_scope.

Lemma has_first : forall hdr p rest, is_record hdr p -> has_record (hdr ++ p ++ rest) p.
Proof.
  intros hdr p rest H. destruct (is_record_framed _ _ H) as [E L]. exists [], rest. cbn [map concat app].
  split; [rewrite app_assoc, E; reflexivity|]. constructor; [exact L|constructor].
Qed.

Lemma has_later : forall hdr p rest q, is_record hdr p -> has_record rest q -> has_record (hdr ++ p ++ rest) q.
Proof.
  intros hdr p rest q H (ps & r & E & F). destruct (is_record_framed _ _ H) as [Ef L]. exists (p :: ps), r. cbn [map concat].
  split; [rewrite E, <- Ef, <- !app_assoc; reflexivity|]. constructor; [exact L|exact F].
Qed.

(* One record. *)
Lemma record_key : forall P lib a x dout hdr ps buf fs rest, prims_ok P -> cx_winv P a x dout -> cop_ok (CUnprotect hdr ps buf) ->
  is_record hdr (iov_concat ps) -> no_handshake P a x (hdr ++ iov_concat ps ++ rest) ->
  exists x' r, cstep P lib x (CUnprotect hdr ps buf) fs = Done (x', r) /\ hc_epoch (cx_in x') = hc_epoch (cx_in x) /\
    exists dout', cx_winv P a x' dout'.
Proof.
  intros P lib a x dout hdr ps buf fs rest HP W Hop Hr Hn.
  assert (X : forall c, ~ gives_handshake P a x (CUnprotect hdr ps buf) c).
  { intros c (hdr' & ps' & buf' & pad & E & _ & _ & Eh & Es). injection E as <- <- <-.
    rewrite Eh in Es. exact (Hn _ _ _ _ (has_first _ _ _ Hr) Es). }
  pose proof (step_key P lib a x dout _ fs HP W Hop) as K. pose proof (cstep_weak P lib a x dout _ fs HP W Hop) as K'.
  destruct (cstep P lib x (CUnprotect hdr ps buf) fs) as [[x' r]|u|]; [|destruct K as (c & K); destruct (X _ K)|destruct K].
  exists x', r. split; [reflexivity|]. split; [|eexists; exact (proj1 K')].
  destruct K as [K|(_ & c & K)]; [exact K|destruct (X _ K)].
Qed.

Lemma run_key : forall P lib al a x id data ops rs opened e x', rec_run P lib al x id data ops rs opened e x' ->
  forall dout, prims_ok P -> cx_winv P a x dout -> cops_ok ops -> no_handshake P a x data ->
  hc_epoch (cx_in x') = hc_epoch (cx_in x) /\ (forall u, e <> EndUndef u) /\ exists dout', cx_winv P a x' dout'.
Proof.
  intros P lib al a x id data ops rs opened e x' H. induction H as [| |x id hdr ps data buf fs x' st n out R _ E _ _
    |x id hdr ps data buf fs u R _ E _|x id hdr ps data buf fs x1 n out ops rs bs e x' R _ E H IH]; intros dout HP W Hok Hn.
  - split; [reflexivity|]. split; [discriminate|eauto].
  - split; [reflexivity|]. split; [discriminate|eauto].
  - destruct (record_key P lib a x dout hdr ps buf fs data HP W (Forall_inv Hok) R Hn) as (y & r & E' & He & HW).
    rewrite E in E'. injection E' as <- _. split; [exact He|]. split; [discriminate|exact HW].
  - destruct (record_key P lib a x dout hdr ps buf fs data HP W (Forall_inv Hok) R Hn) as (y & r & E' & _).
    rewrite E in E'. discriminate E'.
  - destruct (record_key P lib a x dout hdr ps buf fs data HP W (Forall_inv Hok) R Hn) as (y & r & E' & He & dout1 & W1).
    rewrite E in E'. injection E' as <- _.
    destruct (IH dout1 HP W1 (Forall_inv_tail Hok)) as (A & B & C).
    { intros p sq c pad Hp. unfold no_handshake in Hn. rewrite He. apply Hn. apply has_later; assumption. }
    split; [congruence|]. split; assumption.
Qed.

Lemma unprotect_same : forall P lib al a mx nx evs input fs x, prims_ok P -> alloc_ok al -> (exists d, cx_winv P a x d) -> fop_ok (FUnprotect input) ->
  Forall nonempty_iov input -> no_handshake P a x (iov_concat input) ->
  exists f' st bufs fs', fp_unprotect P lib al {| fp_crypt := x; fp_max := mx; fp_next := nx; fp_events := evs |} input fs = Done ((f', st, bufs), fs') /\
    hc_epoch (cx_in (fp_crypt f')) = hc_epoch (cx_in x) /\ exists d, cx_winv P a (fp_crypt f') d.
Proof.
  intros P lib al a mx nx evs input fs x HP HA (d & W) Hop Hne Hn. set (f := {| fp_crypt := x; fp_max := mx; fp_next := nx; fp_events := evs |}).
  pose proof (unprotect_spec P lib al a f input d fs HP HA W Hop) as K.
  destruct (fp_unprotect P lib al f input fs) as [[[[f' st] bufs] fs']|u|].
  - exists f', st, bufs, fs'. split; [reflexivity|].
    destruct K as [(_ & -> & _)|(_ & ops & rs & opened & e & R & Hok & _)]; [split; [reflexivity|eauto]|].
    destruct (run_key P lib al a _ _ _ _ _ _ _ _ R d HP W Hok Hn) as (A & _ & B). auto.
  - exfalso. destruct K as [K|(ops & rs & opened & x' & R & Hok & _)]; [exact (K Hne)|].
    destruct (run_key P lib al a _ _ _ _ _ _ _ _ R d HP W Hok Hn) as (_ & A & _). exact (A u eq_refl).
  - destruct K.
Qed.

(* What sends leaves the other direction alone. *)
Lemma sending_same : forall P lib al a mx o x, prims_ok P -> alloc_ok al -> m_ok o -> m_lock o = true -> (exists d, cx_winv P a x d) ->
  exists x' r, m_step P lib al mx x o = Done (x', r) /\ cx_in x' = cx_in x /\ exists d, cx_winv P a x' d.
Proof.
  intros P lib al a mx [o|o buf|o] x HP HA Ho L (d & W); [| |discriminate L]; cbn [m_ok m_step] in *;
    destruct (cw_in _ _ _ _ W) as (din & Ri & _).
  - destruct (protect_spec P lib al {| fp_crypt := x; fp_max := mx; fp_next := fc_id o; fp_events := [] |} (fc_input o) (fc_faults o)
              din d HP HA Ri (cw_out _ _ _ _ W) Ho)
      as (h' & st & bufs & fs' & cops & crs & k & A & B1 & B2 & _). cbn zeta in A. cbn [fp_crypt] in *.
    unfold f_step. rewrite A. cbn [obind fp_crypt]. do 2 eexists. split; [reflexivity|]. split; [reflexivity|].
    pose proof (crun_weak P lib a cops x d HP W B2) as K. rewrite B1 in K. cbn [safe] in K. destruct K as (W' & _). eexists. exact W'.
  - destruct (protect_into_spec P lib {| fp_crypt := x; fp_max := mx; fp_next := fc_id o; fp_events := [] |} (fc_input o) (fc_id o) buf (fc_faults o)
              din d HP Ri (cw_out _ _ _ _ W))
      as (h' & st & bufs & fs' & cops & crs & k & A & B1 & B2 & _).
    { unfold f_ok, protected_size in Ho. lia. }
    cbn zeta in A. cbn [fp_crypt] in *. rewrite A. cbn [obind].
    pose proof (crun_weak P lib a cops x d HP W B2) as K. rewrite B1 in K. cbn [safe] in K. destruct K as (W' & _).
    destruct (is_ok st); do 2 eexists; (split; [reflexivity|]); (split; [reflexivity|]); eexists; exact W'.
Qed.

Lemma no_handshake_same : forall P a x x' data, hc_epoch (cx_in x') = hc_epoch (cx_in x) -> no_handshake P a x data -> no_handshake P a x' data.
Proof. intros P a x x' data E H p sq c pad Hp. rewrite E. exact (H p sq c pad Hp). Qed.

Lemma quiet_same : forall P a x x' o, hc_epoch (cx_in x') = hc_epoch (cx_in x) -> quiet P a x o -> quiet P a x' o.
Proof. intros P a x x' [o|o buf|o] E H; auto. destruct H as [A B]. split; [exact A|]. eapply no_handshake_same; eassumption. Qed.

Lemma quiet_run : forall P lib al a mx os x, prims_ok P -> alloc_ok al -> (exists d, cx_winv P a x d) -> Forall m_ok os -> Forall (quiet P a x) os ->
  exists x' r, seq_run (m_step P lib al mx) x os = Done (x', r) /\ hc_epoch (cx_in x') = hc_epoch (cx_in x).
Proof.
  intros P lib al a mx. induction os as [|o os IH]; intros x HP HA HW Hok Hq; [do 2 eexists; split; reflexivity|].
  inversion Hok as [|? ? Ho Hos]; subst. inversion Hq as [|? ? Q Qs]; subst. cbn [seq_run].
  assert (S1 : exists x1 r, m_step P lib al mx x o = Done (x1, r) /\ hc_epoch (cx_in x1) = hc_epoch (cx_in x) /\ exists d, cx_winv P a x1 d).
  { destruct (m_lock o) eqn:L.
    - destruct (sending_same P lib al a mx o x HP HA Ho L HW) as (x1 & r & E & Ei & W1). exists x1, r. rewrite Ei. auto.
    - destruct o as [o|o buf|o]; try discriminate. destruct Q as [Q1 Q2]. cbn [m_step]. unfold r_step.
      destruct (unprotect_same P lib al a mx (fc_id o) [] (fc_input o) (fc_faults o) x HP HA HW Ho Q1 Q2) as (f' & st & bufs & fs' & E & A & B).
      rewrite E. cbn [obind]. do 2 eexists. split; [reflexivity|]. auto. }
  destruct S1 as (x1 & r & E & Ee & W1). rewrite E. cbn [obind].
  destruct (IH x1 HP HA W1 Hos) as (x2 & rs & E2 & Ee2).
  { eapply Forall_impl; [|exact Qs]. intros o' Q'. eapply quiet_same; eassumption. }
  rewrite E2. cbn [obind]. do 2 eexists. split; [reflexivity|congruence].
Qed.

Lemma drawn_forall : forall O (Q : O -> Prop) calls ps, Forall (Forall Q) calls -> drawn calls ps -> Forall Q (map snd ps).
Proof.
  intros O Q calls ps H (D1 & D2). apply Forall_forall. intros o Ho. apply in_map_iff in Ho. destruct Ho as ((i & o') & <- & Hin).
  pose proof (D1 _ Hin) as Hi. cbn [fst snd] in *. destruct (nth_error calls i) as [cs|] eqn:Ec; [|apply nth_error_None in Ec; lia].
  destruct (D2 _ _ Ec) as (later & ->). apply nth_error_In in Ec. rewrite Forall_forall in H. specialize (H _ Ec).
  rewrite Forall_forall in H. apply H. apply in_or_app. left. apply in_map_iff. exists (i, o'). split; [reflexivity|].
  apply filter_In. split; [exact Hin|]. apply Nat.eqb_refl.
Qed.

Lemma quiet_threads : forall P lib al a ops rs f calls, protector P lib al a ops rs f -> Forall (Forall m_ok) calls ->
  Forall (Forall (quiet P (fa_crypt a) (fp_crypt f))) calls ->
  forall sched1 sched2, exists (c1 c2 : m_threads) l1 l2,
    mgo P lib al (mstart (fp_crypt f) calls) sched1 = Done c1 /\
    mgo P lib al c1 sched2 = Done c2 /\
    m_explains (seq_run (m_step P lib al (fp_max f))) (fp_crypt f) calls c1 l1 /\
    m_explains (seq_run (m_step P lib al (fp_max f))) (fp_crypt f) calls c2 (l1 ++ l2) /\
    exists sched3 c3, mgo P lib al c1 sched3 = Done c3 /\ m_finished c3.
Proof.
  intros P lib al a ops rs f calls Hp Hc Hq sched1 sched2.
  apply (threads_linear_calm P lib al a ops rs f calls Hp Hc).
  intros ps D. pose proof Hp as (HP & HA & _). destruct (protector_winv _ _ _ _ _ _ _ Hp) as (d & din & W & _).
  apply (quiet_run P lib al (c_args a) (fp_max f)); auto; [eauto|eapply drawn_forall; eassumption|].
  exact (drawn_forall _ _ _ _ Hq D).
Qed.

(* ---- one thread, all four calls ---- *)
Lemma frame_same : forall P lib al a ops rs f op fs, protector P lib al a ops rs f -> fop_ok op ->
  (forall input, op = FUnprotect input \/ (exists buf, op = FUnprotectInto input buf) ->
     Forall nonempty_iov input /\ no_handshake P (fa_crypt a) (fp_crypt f) (iov_concat input)) ->
  exists f' r, fstep P lib al f op fs = Done (f', r) /\ hc_epoch (cx_in (fp_crypt f')) = hc_epoch (cx_in (fp_crypt f)).
Proof.
  intros P lib al a ops rs f op fs Hp Hop Hq. pose proof Hp as (HP & HA & _).
  destruct (protector_winv _ _ _ _ _ _ _ Hp) as (d & din & W & Ro & Ri).
  destruct op as [input|input id buf|input|input buf]; cbn [fstep fop_ok] in *.
  - destruct (protect_spec P lib al f input fs din d HP HA Ri Ro Hop) as (h' & st & bufs & fs' & cops & crs & k & A & _).
    cbn zeta in A. rewrite A. cbn [obind]. do 2 eexists. split; reflexivity.
  - destruct (protect_into_spec P lib f input id buf fs din d HP Ri Ro) as (h' & st & bufs & fs' & cops & crs & k & A & _).
    { unfold protected_size in Hop. lia. }
    cbn zeta in A. rewrite A. cbn [obind]. destruct (is_ok st); do 2 eexists; split; reflexivity.
  - destruct (Hq input (or_introl eq_refl)) as [Q1 Q2]. destruct f as [x mx nx evs].
    destruct (unprotect_same P lib al (c_args a) mx nx evs input fs x HP HA (ex_intro _ d W) Hop Q1 Q2) as (f' & st & bufs & fs' & E & A & _).
    rewrite E. cbn [obind]. do 2 eexists. split; [reflexivity|exact A].
  - destruct (Hq input (or_intror (ex_intro _ buf eq_refl))) as [Q1 Q2].
    pose proof (unprotect_into_spec P lib (c_args a) f input buf d fs HP W Hop) as K.
    destruct (fp_unprotect_into P lib f input (IoBuf buf) fs) as [[[[[f' st] out] len] fs']|u|].
    + cbn [obind]. do 2 eexists. split; [reflexivity|].
      destruct K as [(_ & -> & _)|[(_ & _ & -> & _)|(_ & hdr & ps & rest & x' & s & n & K1 & K2 & K3 & K4 & -> & _)]]; [reflexivity|reflexivity|].
      rewrite K1 in Q2. destruct (record_key P lib (c_args a) (fp_crypt f) d hdr ps buf fs rest HP W K3 K2 Q2) as (y & r & E & A & _).
      rewrite K4 in E. injection E as <- _. exact A.
    + exfalso. destruct K as [K|(hdr & ps & rest & K1 & K2 & K3 & K4)]; [exact (K Q1)|].
      rewrite K1 in Q2. destruct (record_key P lib (c_args a) (fp_crypt f) d hdr ps buf fs rest HP W K3 K2 Q2) as (y & r & E & _).
      rewrite K4 in E. discriminate E.
    + destruct K.
Qed.
