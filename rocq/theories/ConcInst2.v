(* Threads calling Protect on one S2ACrypter or one frame protector. *)
From Coq Require Import List NArith ZArith Bool Lia ZifyBool ZifyNat ZifyN PeanoNat.
From Verif Require Import Base BaseProofs Aead Hkdf HalfConn SpecAead SpecTls HalfProofs HalfRun HalfRunProofs
  Options HsHandler Crypter SpecRecord CrypterProofs CrypterRun CrypterRunProofs FrameProt SpecFrame FrameRun FrameProofs
  FrameSim FrameFinal Conc ConcAlone ConcRun ConcLinear ConcTag ConcBoth ConcInst.
Import ListNotations.
Local Open Scope N_scope.

Lemma same_object_refl : forall h, same_object h h.
Proof. repeat split. Qed.
Lemma same_object_trans : forall a b c, same_object a b -> same_object b c -> same_object a c.
Proof. intros a b c (A1 & A2 & A3) (B1 & B2 & B3). repeat split; congruence. Qed.

(* What Protect may do to the crypter. *)
Definition sends (x x' : crypt) : Prop :=
  cx_in x' = cx_in x /\ same_object (cx_out x) (cx_out x') /\ extends (cx_out x) (cx_out x').
Lemma sends_refl : forall x, sends x x.
Proof. intro x. split; [reflexivity|]. split; [apply same_object_refl|apply extends_refl]. Qed.
Lemma sends_trans : forall a b c, sends a b -> sends b c -> sends a c.
Proof.
  intros a b c (A1 & A2 & A3) (B1 & B2 & B3). split; [congruence|].
  split; [eapply same_object_trans; eassumption|eapply extends_trans; eassumption].
Qed.

Lemma half_encrypt_extends : forall P h aad pt out,
  post (half_encrypt P h aad pt out) (fun r => extends h (fst (fst r))).
Proof.
  intros P h aad pt out. unfold half_encrypt. destruct (hc_aead h) as [c|]; [|apply post_ret, extends_refl].
  destruct (_ || _). { apply post_ret. apply extends_refl. }
  eapply post_bind2.
  { apply post_lift with (Q := fun r => nonce_mask h = Done r). intros a E. rewrite E. reflexivity. }
  intros [n h1] E. cbn beta iota. apply post_bind. intros [[c1 st] o1]. apply post_ret. cbn [fst].
  unfold nonce_mask in E. destruct (_ <? _); [discriminate|]. injection E as _ <-. eexists. reflexivity.
Qed.

Ltac ss := repeat (cbn beta iota zeta;
  match goal with
  | |- stepsC _ (cbind _ _) => apply steps_cbind; [|intro]
  | |- stepsC _ (cret _) => apply steps_cret
  | |- stepsC _ (own _) => apply steps_own; [apply sends_refl]
  | |- stepsC _ overhead_c => unfold overhead_c
  | |- stepsC _ (if ?b then _ else _) => destruct b
  | |- stepsC _ (match ?x with _ => _ end) => destruct x
  end).

Lemma tag_in_sends : stepsC sends tag_in.
Proof.
  apply steps_cbind; [|intro p]; apply steps_act; intros s s1 b E.
  - injection E as <- _. apply sends_refl.
  - unfold use_in in E. destruct (use_tag p (cx_in s)); try discriminate. injection E as <- _. apply sends_refl.
Qed.
Lemma tag_out_sends : stepsC sends tag_out.
Proof.
  apply steps_cbind; [|intro p]; apply steps_act; intros s s1 b E.
  - injection E as <- _. apply sends_refl.
  - unfold use_out in E. destruct (use_tag p (cx_out s)); try discriminate. injection E as <- _. apply sends_refl.
Qed.

Lemma payload_sends : forall P t pt hdr buf, stepsC sends (protect_payload P t pt hdr buf).
Proof.
  intros. unfold protect_payload. ss. apply steps_actM. intro x.
  intros fs r fs' E. unfold bind in E.
  match type of E with context [half_encrypt P ?h ?a ?b ?c fs] =>
    destruct (half_encrypt P h a b c fs) as [[[[h1 st] tail] fs1]|u|] eqn:K end; try discriminate.
  injection E as <- _. cbn [fst]. split; [reflexivity|]. split.
  - exact (half_encrypt_object _ _ _ _ _ _ _ _ K).
  - exact (half_encrypt_extends _ _ _ _ _ _ _ _ K).
Qed.

Lemma checks_sends : forall len record, stepsC sends (protect_checks len record).
Proof. intros. unfold protect_checks. ss; first [apply tag_in_sends|apply tag_out_sends]. Qed.

Lemma crypt_protect_sends : forall P t pt record, stepsC sends (crypt_protect_c P t pt record).
Proof. intros. unfold crypt_protect_c. ss; [apply checks_sends|apply payload_sends]. Qed.

Lemma loop_sends : forall fuel P m c remaining first out index id,
  stepsC sends (protect_loop_c fuel P m c remaining first out index id).
Proof.
  induction fuel as [|fuel IH]; intros; cbn [protect_loop_c]; ss;
    first [apply crypt_protect_sends|apply tag_in_sends|apply IH].
Qed.

Lemma into_sends : forall P m input id out, stepsC sends (fp_protect_into_c P m input id out).
Proof. intros. unfold fp_protect_into_c. ss; first [apply loop_sends|apply crypt_protect_sends]. Qed.

(* ---- the object at all times ---- *)
Section Sending.
Variables (P : prims) (lib : ssl_lib) (a : create_args) (x0 : crypt).
Hypothesis HP : prims_ok P.
Hypothesis Tin : half_tag_length (cx_in x0) = Done 16.
Hypothesis Tout : half_tag_length (cx_out x0) = Done 16.

Definition x_order (x : crypt) : Prop := in_order P (ca_suite a) (ca_out_seq a) (ca_out_secret a) (cx_out x).
Definition x_inv (x : crypt) : Prop := sends x0 x /\ x_order x.
Definition x_good (x : crypt) : Prop := sends x0 x /\ exists d, cx_winv P a x d.

Lemma winv_order : forall x d, cx_winv P a x d -> x_order x.
Proof. intros x d W. eapply used_in_order. exact (cw_out_used _ _ _ _ W). Qed.
Lemma good_inv : forall x, x_good x -> x_inv x.
Proof. intros x [H (d & W)]. split; [exact H|eapply winv_order; exact W]. Qed.
Lemma between : forall x m x', x_good x -> x_good x' -> sends x m -> sends m x' -> x_inv m.
Proof.
  intros x m x' [H1 _] [_ (d & W)] S1 S2. split; [eapply sends_trans; eassumption|].
  eapply in_order_prefix; [apply S2|]. exact (winv_order _ _ W).
Qed.

Lemma quiet_bind : forall S A B (I : S -> Prop) (p : prog S A) (k : A -> prog S B) q r,
  quiet I p q -> quiet I (k q) r -> quiet I (pbind p k) r.
Proof.
  intros S A B I p k q r. induction p as [q'|C f k' IH]; cbn [quiet pbind]; intros H1 H2; [subst; exact H2|].
  intros s HI. destruct (H1 s HI) as (b & E & Hb). exists b. split; [exact E|]. apply IH; assumption.
Qed.
Lemma quiet_cbind : forall A B (m : C crypt A) (k : A -> C crypt B) fs q fs1 r,
  quiet x_inv (m fs) (q, fs1) -> quiet x_inv (k q fs1) r -> quiet x_inv (cbind m k fs) r.
Proof. intros A B m k fs q fs1 r H1 H2. eapply quiet_bind; [exact H1|exact H2]. Qed.

Lemma load_16 : forall h, half_tag_length h = Done 16 -> load_tag h = Some (hc_epoch h).
Proof. intros h H. unfold load_tag, half_tag_length in *. destruct (hc_aead h); [reflexivity|discriminate]. Qed.

Lemma quiet_tag_in : forall fs, quiet x_inv (tag_in fs) (16, fs).
Proof.
  intros fs x [[E _] _]. cbn [load_in]. eexists. split; [reflexivity|]. rewrite E, (load_16 _ Tin).
  intros y [[E' _] _]. exists 16. split; [|reflexivity]. unfold use_in, use_tag. rewrite E', N.eqb_refl, Tin. reflexivity.
Qed.
Lemma quiet_tag_out : forall fs, quiet x_inv (tag_out fs) (16, fs).
Proof.
  intros fs x [(_ & (E1 & E2 & E3) & _) _]. cbn [load_out]. eexists. split; [reflexivity|]. rewrite E3, (load_16 _ Tout).
  intros y [(_ & (F1 & F2 & F3) & _) _]. exists 16. split; [|reflexivity]. unfold use_out, use_tag.
  rewrite F1, N.eqb_refl, F2, Tout. reflexivity.
Qed.
Lemma quiet_overhead : forall fs, quiet x_inv (overhead_c fs) (22, fs).
Proof. intros fs. unfold overhead_c. eapply quiet_cbind; [apply quiet_tag_in|]. reflexivity. Qed.

Lemma quiet_checks : forall len record fs, exists r, quiet x_inv (protect_checks len record fs) (r, fs).
Proof.
  intros len record fs. unfold protect_checks. destruct (_ <? len); [eexists; reflexivity|].
  destruct (iov_len record <? len + 22) eqn:El.
  - eexists. eapply quiet_cbind; [apply quiet_overhead|]. cbn beta. rewrite El. reflexivity.
  - destruct record as [buf|n]; eexists; (eapply quiet_cbind; [apply quiet_overhead|]); cbn beta; rewrite El;
      (eapply quiet_cbind; [apply quiet_tag_out|]); reflexivity.
Qed.

(* ---- S2ACrypter ---- *)
Definition x_step (x : crypt) (o : xop * faults) : outcome (crypt * cres) := cstep P lib x (as_cop (fst o)) (snd o).

Lemma xrun_seq : forall os x, seq_run x_step x os = x_run P lib x os.
Proof.
  unfold x_run. induction os as [|[op fs] os IH]; intro x; cbn [seq_run crun map]; [reflexivity|].
  unfold x_step at 1. cbn [fst snd]. destruct (cstep P lib x (as_cop op) fs) as [[x1 r]|u|]; cbn [obind]; [|reflexivity|reflexivity].
  rewrite IH. reflexivity.
Qed.

Lemma x_alone : forall t pt buf fs x,
  alone (pbind (x_pre (XProtect t pt buf, fs)) (x_body P lib)) x = cstep P lib x (CProtect t pt buf) fs.
Proof.
  intros t pt buf fs x. rewrite alone_pbind. unfold x_pre. cbn [fst snd]. rewrite alone_pbind.
  cbn [cstep]. pose proof (crypt_protect_alone P t pt (IoBuf buf) fs x) as E.
  unfold crypt_protect_c in E. rewrite alone_cbind in E.
  destruct (alone (protect_checks (total_len pt) (IoBuf buf) fs) x) as [[x1 [r fs1]]|u|]; cbn [obind alone] in *.
  - unfold x_body. destruct r as [[st n]|hdr].
    + cbn [alone cret] in *. destruct (crypt_protect P x t pt (IoBuf buf) fs) as [[[[x2 [st2 n2]] o2] fs2]|u|]; cbn [obind] in *; try discriminate.
      injection E as -> -> -> -> ->. reflexivity.
    + rewrite alone_pbind. cbn [iov_data] in E. rewrite E.
      destruct (crypt_protect P x t pt (IoBuf buf) fs) as [[[[x2 [st2 n2]] o2] fs2]|u|]; reflexivity.
  - destruct (crypt_protect P x t pt (IoBuf buf) fs) as [[[[x2 [st2 n2]] o2] fs2]|u'|]; cbn [obind] in *; congruence.
  - destruct (crypt_protect P x t pt (IoBuf buf) fs) as [[[[x2 [st2 n2]] o2] fs2]|u'|]; cbn [obind] in *; congruence.
Qed.

Lemma x_body_sends : forall r t pt buf fs, steps sends (x_body P lib (r, (XProtect t pt buf, fs))).
Proof.
  intros [st|hdr] t pt buf fs; cbn [x_body]; [apply ST_ret|].
  apply steps_bind; [apply payload_sends|]. intros [[[st n] o] fs1]. apply ST_ret.
Qed.

Lemma x_ready : forall o, x_ok o -> exists q, quiet x_inv (x_pre o) q /\
  ready (x_body P lib) x_step x_inv x_good o q.
Proof.
  intros [op fs] (t & pt & buf & E & Hs). cbn [fst] in E. subst op.
  destruct (quiet_checks (total_len pt) (IoBuf buf) fs) as [r Hr].
  assert (Hq : quiet x_inv (x_pre (XProtect t pt buf, fs)) (r, (XProtect t pt buf, fs))).
  { unfold x_pre. cbn [fst snd]. eapply quiet_bind; [exact Hr|]. reflexivity. }
  exists (r, (XProtect t pt buf, fs)). split; [exact Hq|].
  intros x Hx. pose proof Hx as [Sx (d & W)].
  pose proof (cstep_weak P lib a x d (CProtect t pt buf) fs HP W Hs) as K.
  destruct (cw_in _ _ _ _ W) as (din & Ri & _).
  destruct (crypt_protect_spec P x din d t pt buf fs HP Ri (cw_out _ _ _ _ W) Hs) as (h' & st & n & buf' & fs' & E & _).
  unfold x_step. cbn [fst snd as_cop].
  assert (Ec : cstep P lib x (CProtect t pt buf) fs = Done (set_out x h', CProtected st n (IoBuf buf'))).
  { cbn [cstep]. rewrite E. reflexivity. }
  rewrite Ec in K. cbn [safe] in K. destruct K as (W' & _).
  assert (Ea : alone (x_body P lib (r, (XProtect t pt buf, fs))) x = Done (set_out x h', CProtected st n (IoBuf buf'))).
  { pose proof (x_alone t pt buf fs x) as A. rewrite alone_pbind, (quiet_alone x_inv _ _ _ _ Hq (good_inv _ Hx)) in A.
    cbn [obind] in A. rewrite A. exact Ec. }
  assert (Hg : x_good (set_out x h')).
  { split; [|eauto]. eapply sends_trans; [exact Sx|].
    eapply (steps_alone sends sends_refl sends_trans); [apply x_body_sends|exact Ea]. }
  do 2 eexists. split; [exact Ec|]. split; [exact Hg|].
  eapply (leads_intro sends sends_refl sends_trans); [apply x_body_sends|exact Ea|].
  intros m. apply between; assumption.
Qed.

(* ---- the frame protector ---- *)
Variables (al : allocator) (mx : N).
Hypothesis HA : alloc_ok al.

Lemma f_alone : forall o x, alone (pbind (f_pre al o) (f_body P)) x = f_step P al mx x o.
Proof.
  intros o x. unfold f_step. rewrite alone_pbind. unfold f_pre. rewrite alone_pbind.
  set (m := {| hp_next := fc_id o; hp_events := [] |}).
  pose proof (protect_alone P al mx m (fc_input o) (fc_faults o) x) as E.
  unfold fp_protect_c in E. rewrite alone_cbind in E.
  change {| fp_crypt := x; fp_max := mx; fp_next := fc_id o; fp_events := [] |} with (join mx m x).
  destruct (alone (number_bytes_c (total_len (fc_input o)) (fc_faults o)) x) as [[x1 [size fs1]]|u|]; cbn [obind] in *.
  - unfold hp_alloc in *. cbn [obind alone] in *. unfold f_body. cbn [fr_heap fr_call fr_out fc_input fc_id fc_faults].
    rewrite alone_cbind in E. rewrite alone_pbind.
    match goal with |- context [alone (fp_protect_into_c ?a ?b ?c ?d ?e ?f) ?g] =>
      destruct (alone (fp_protect_into_c a b c d e f) g) as [[x2 [r fs2]]|u|] end; cbn [obind] in *.
    + rewrite alone_cret in E.
      destruct (fp_protect P al (join mx m x) (fc_input o) (fc_faults o)) as [[[[f st] bs] fs3]|u|]; cbn [obind] in *; try discriminate.
      injection E as -> E ->. change (hp_next m) with (fc_id o). rewrite E. reflexivity.
    + destruct (fp_protect P al (join mx m x) (fc_input o) (fc_faults o)) as [[[[f st] bs] fs3]|u'|]; cbn [obind] in *; try discriminate; injection E as ->; reflexivity.
    + destruct (fp_protect P al (join mx m x) (fc_input o) (fc_faults o)) as [[[[f st] bs] fs3]|u'|]; cbn [obind] in *; try discriminate; reflexivity.
  - destruct (fp_protect P al (join mx m x) (fc_input o) (fc_faults o)) as [[[[f st] bs] fs3]|u'|]; cbn [obind] in *; try discriminate; injection E as ->; reflexivity.
  - destruct (fp_protect P al (join mx m x) (fc_input o) (fc_faults o)) as [[[[f st] bs] fs3]|u'|]; cbn [obind] in *; try discriminate; reflexivity.
Qed.

Lemma f_body_sends : forall q, steps sends (f_body P q).
Proof.
  intro q. unfold f_body. apply steps_bind; [apply into_sends|]. intros [r fs].
  destruct (finish_protect (fc_id (fr_call q)) r) as [[m st] bs]. apply ST_ret.
Qed.

Lemma f_ready : forall o, f_ok o -> exists q, quiet x_inv (f_pre al o) q /\
  ready (f_body P) (f_step P al mx) x_inv x_good o q.
Proof.
  intros o Ho.
  assert (exists q, quiet x_inv (f_pre al o) q) as [q Hq].
  { eexists. unfold f_pre. eapply quiet_bind.
    - unfold number_bytes_c. eapply quiet_cbind; [apply quiet_overhead|]. reflexivity.
    - cbn beta iota. unfold hp_alloc. cbn. reflexivity. }
  exists q. split; [exact Hq|].
  intros x Hx. pose proof Hx as [Sx (d & W)]. destruct (cw_in _ _ _ _ W) as (din & Ri & _).
  destruct (protect_spec P lib al {| fp_crypt := x; fp_max := mx; fp_next := fc_id o; fp_events := [] |} (fc_input o) (fc_faults o)
              din d HP HA Ri (cw_out _ _ _ _ W) Ho)
    as (h' & st & bufs & fs' & cops & crs & k & A & B1 & B2 & _). cbn zeta in A. cbn [fp_crypt] in *.
  pose proof (crun_weak P lib a cops x d HP W B2) as K. rewrite B1 in K. cbn [safe] in K. destruct K as (W' & _).
  assert (exists r, f_step P al mx x o = Done (set_out x h', r)) as [r Ec].
  { unfold f_step. rewrite A. eexists. reflexivity. }
  assert (Ea : alone (f_body P q) x = Done (set_out x h', r)).
  { pose proof (f_alone o x) as E. rewrite alone_pbind, (quiet_alone x_inv _ _ _ _ Hq (good_inv _ Hx)) in E.
    cbn [obind] in E. rewrite E. exact Ec. }
  assert (Hg : x_good (set_out x h')).
  { split; [|eauto]. eapply sends_trans; [exact Sx|].
    eapply (steps_alone sends sends_refl sends_trans); [apply f_body_sends|exact Ea]. }
  do 2 eexists. split; [exact Ec|]. split; [exact Hg|].
  eapply (leads_intro sends sends_refl sends_trans); [apply f_body_sends|exact Ea|].
  intros m. apply between; assumption.
Qed.
End Sending.

Lemma crypter_linear : forall P lib a ops rs x calls, connection P lib a ops rs x -> Forall (Forall x_ok) calls ->
  forall sched1 sched2, exists (c1 c2 : x_threads) l1 l2,
    trun x_pre (x_body P lib) (tstart x calls) sched1 = Done c1 /\
    trun x_pre (x_body P lib) c1 sched2 = Done c2 /\
    explains (x_run P lib) x calls c1 l1 /\ explains (x_run P lib) x calls c2 (l1 ++ l2) /\
    in_order P (ca_suite a) (ca_out_seq a) (ca_out_secret a) (cx_out (cf_mem c2)) /\
    exists sched3 c3, trun x_pre (x_body P lib) c2 sched3 = Done c3 /\ finished c3.
Proof.
  intros P lib a ops rs x calls (HP & Hi & Ho & Hok & HR) Hc sched1 sched2.
  destruct (creach_winv P lib a ops rs x HP Hi Ho Hok HR) as [W _].
  destruct (cw_in _ _ _ _ W) as (din & Ri & _).
  pose proof (half_tag_spec _ _ _ Ri) as Tin. pose proof (half_tag_spec _ _ _ (cw_out _ _ _ _ W)) as Tout.
  pose proof (x_ready P lib a x HP Tin Tout) as R.
  assert (Hg : x_good P a x x) by (split; [apply sends_refl|eauto]).
  pose proof (mutex_linear x_pre (x_body P lib) (x_step P lib) (x_inv P a x) (x_good P a x) x_ok R x calls Hg
    (good_inv _ _ _ _ Hg) Hc sched1 sched2) as (c1 & c2 & l1 & l2 & E1 & E2 & I1 & I2).
  exists c1, c2, l1, l2. split; [exact E1|]. split; [exact E2|].
  split. { apply (explains_ext _ _ _ _ (seq_run (x_step P lib))); [intros; apply xrun_seq|]. eapply inv_explains; exact I1. }
  split. { apply (explains_ext _ _ _ _ (seq_run (x_step P lib))); [intros; apply xrun_seq|]. eapply inv_explains; exact I2. }
  split. { destruct I2 as (s1 & _ & _ & [_ K] & _). exact K. }
  destruct (can_finish x_pre (x_body P lib) (x_step P lib) (x_inv P a x) (x_good P a x) x_ok R _ _ _ _ I2)
    as (sc & c3 & l3 & F1 & _ & _ & F4). eauto.
Qed.

Lemma frame_linear : forall P lib al a ops rs f calls, protector P lib al a ops rs f -> Forall (Forall f_ok) calls ->
  forall sched1 sched2, exists (c1 c2 : f_threads) l1 l2,
    trun (f_pre al) (f_body P) (tstart (fp_crypt f) calls) sched1 = Done c1 /\
    trun (f_pre al) (f_body P) c1 sched2 = Done c2 /\
    explains (seq_run (f_step P al (fp_max f))) (fp_crypt f) calls c1 l1 /\
    explains (seq_run (f_step P al (fp_max f))) (fp_crypt f) calls c2 (l1 ++ l2) /\
    in_order P (ca_suite (fa_crypt a)) (ca_out_seq (fa_crypt a)) (ca_out_secret (fa_crypt a)) (cx_out (cf_mem c2)) /\
    exists sched3 c3, trun (f_pre al) (f_body P) c2 sched3 = Done c3 /\ finished c3.
Proof.
  intros P lib al a ops rs f calls Hp Hc sched1 sched2. pose proof Hp as (HP & HA & _).
  destruct (protector_winv _ _ _ _ _ _ _ Hp) as (d & din & W & Ro & Ri).
  pose proof (half_tag_spec _ _ _ Ri) as Tin. pose proof (half_tag_spec _ _ _ Ro) as Tout.
  pose proof (f_ready P lib (c_args a) (fp_crypt f) HP Tin al (fp_max f) HA) as R.
  assert (Hg : x_good P (c_args a) (fp_crypt f) (fp_crypt f)) by (split; [apply sends_refl|eauto]).
  pose proof (mutex_linear (f_pre al) (f_body P) (f_step P al (fp_max f)) (x_inv P (c_args a) (fp_crypt f))
    (x_good P (c_args a) (fp_crypt f)) f_ok R (fp_crypt f) calls Hg (good_inv _ _ _ _ Hg) Hc sched1 sched2)
    as (c1 & c2 & l1 & l2 & E1 & E2 & I1 & I2).
  exists c1, c2, l1, l2. split; [exact E1|]. split; [exact E2|].
  split. { eapply inv_explains; exact I1. } split. { eapply inv_explains; exact I2. }
  split. { destruct I2 as (s1 & _ & _ & [_ K] & _). exact K. }
  destruct (can_finish (f_pre al) (f_body P) (f_step P al (fp_max f)) (x_inv P (c_args a) (fp_crypt f))
    (x_good P (c_args a) (fp_crypt f)) f_ok R _ _ _ _ I2)
    as (sc & c3 & l3 & F1 & _ & _ & F4). eauto.
Qed.

(* ---- Protect and Unprotect ---- *)
Lemma two_calls : forall P lib al a ops rs f, protector P lib al a ops rs f ->
  forall in1 fs1 in2 fs2 fu st2 bs2 gs2, fop_ok (FProtect in1) ->
  fp_unprotect P lib al f in2 fs2 = Done ((fu, st2, bs2), gs2) ->
  exists fp st1 bs1 gs1, fp_protect P al f in1 fs1 = Done ((fp, st1, bs1), gs1) /\
  forall sched,
  match both sched (fp_protect_c P al (heap_of f) in1 fs1) (fp_unprotect_c P lib al (heap_of f) in2 fs2) (fp_crypt f) with
  | Done (x, p, q) =>
    (forall r, p = Ret r -> r = ((heap_of fp, st1, bs1), gs1)) /\
    (forall r, q = Ret r -> r = ((heap_of fu, st2, bs2), gs2)) /\
    (forall r r', p = Ret r -> q = Ret r' -> x = set_out (fp_crypt fu) (cx_out (fp_crypt fp))) /\
    (exists sched', match both sched' p q x with
                    | Done (_, p', q') => (exists r, p' = Ret r) /\ (exists r, q' = Ret r)
                    | _ => True
                    end)
  | Undef u => u = UbUseAfterFree /\ hc_epoch (cx_in (fp_crypt f)) < hc_epoch (cx_in (fp_crypt fu))
  | NoFuel => False
  end.
Proof.
  intros P lib al a ops rs f Hp in1 fs1 in2 fs2 fu st2 bs2 gs2 Ho Eu. pose proof Hp as (HP & HA & _).
  destruct (protector_winv _ _ _ _ _ _ _ Hp) as (d & din & W & Ro & Ri).
  destruct (protect_spec P lib al f in1 fs1 din d HP HA Ri Ro Ho)
    as (h' & st & bufs & fs' & cops & crs & k & A & _). cbn zeta in A.
  do 4 eexists. split; [exact A|]. intro sched.
  assert (Ef : join (fp_max f) (heap_of f) (fp_crypt f) = f) by (destruct f; reflexivity).
  pose proof (protect_alone P al (fp_max f) (heap_of f) in1 fs1 (fp_crypt f)) as A1.
  rewrite Ef, A in A1. cbn [obind fp_crypt] in A1.
  pose proof (unprotect_alone P lib al (fp_max f) (heap_of f) in2 fs2 (fp_crypt f)) as A2.
  rewrite Ef, Eu in A2. cbn [obind] in A2.
  pose proof (both_sound _ _ _ _ (epoch_in (fp_crypt f)) sched (fp_crypt f)
    (fp_protect_c P al (heap_of f) in1 fs1) (fp_unprotect_c P lib al (heap_of f) in2 fs2)
    ltac:(exists (fp_crypt f), (fp_crypt f); rewrite set_out_same; repeat split;
      [exact (half_tag_spec _ _ _ Ri)|exact (half_tag_spec _ _ _ Ri)|apply N.le_refl
      |left; split; [apply outbound_protect|exact A1]|apply inbound_unprotect|exact A2])) as B.
  destruct (both sched _ _ (fp_crypt f)) as [[[x p] q]|u|]; [|exact B|exact B].
  apply together_done in B. destruct B as (B1 & B2 & B3). repeat (split; [assumption|]). apply finish_both.
Qed.

Lemma protect_program : forall P al f input fs,
  alone (fp_protect_c P al (heap_of f) input fs) (fp_crypt f) =
  obind (fp_protect P al f input fs) (fun '((f', st, bs), gs) => Done (fp_crypt f', ((heap_of f', st, bs), gs))).
Proof.
  intros P al f input fs. rewrite (protect_alone P al (fp_max f)).
  assert (Ef : join (fp_max f) (heap_of f) (fp_crypt f) = f) by (destruct f; reflexivity). rewrite Ef. reflexivity.
Qed.
Lemma unprotect_program : forall P lib al f input fs,
  alone (fp_unprotect_c P lib al (heap_of f) input fs) (fp_crypt f) =
  obind (fp_unprotect P lib al f input fs) (fun '((f', st, bs), gs) => Done (fp_crypt f', ((heap_of f', st, bs), gs))).
Proof.
  intros P lib al f input fs. rewrite (unprotect_alone P lib al (fp_max f)).
  assert (Ef : join (fp_max f) (heap_of f) (fp_crypt f) = f) by (destruct f; reflexivity). rewrite Ef. reflexivity.
Qed.
