(* A writing and a reading thread: proofs. *)
From Coq Require Import List NArith Bool Lia.
From Verif Require Import Base Aead Hkdf HalfConn SpecTls Options HsHandler Crypter FrameProt SpecFrame FrameRun
  HalfProofs CrypterProofs FrameProofs FrameSim FrameFinal Conc ConcAlone ConcTag ConcBoth ConcPair.
Import ListNotations.
Local Open Scope N_scope.

(* ---- the programs without interference ---- *)
Lemma unprotect_into_alone : forall P lib mx m input out fs x,
  alone (fp_unprotect_into_c P lib m input out fs) x =
  obind (fp_unprotect_into P lib (join mx m x) input out fs)
    (fun '((f, st, out, n), fs) => Done (fp_crypt f, ((heap_of f, st, out, n), fs))).
Proof.
  intros P lib mx m input out fs x.
  unfold fp_unprotect_into_c, fp_unprotect_into, number_unprotect_c, number_bytes_to_unprotect.
  sq. rewrite overhead_alone. sq. cbn [fp_crypt join].
  destruct (record_overhead x) as [o|u|]; cbn [obind]; [|reflexivity|reflexivity].
  destruct (total_len input <? o); cbn [obind].
  { cbn [N.eqb]. sq. destruct m; reflexivity. }
  sq. destruct (total_len input - kTlsRecordHeaderSize =? 0); [sq; destruct m; reflexivity|]. sq.
  destruct (compute_record_size (input, 0)) as [[st|[hdr [vs on]]]|u|]; cbn [obind]; [destruct m; reflexivity| |reflexivity|reflexivity].
  sq.
  destruct (isolate_payload vs on (header_payload_size hdr)) as [[st|[payload c1]]|u|]; cbn [obind]; [destruct m; reflexivity| |reflexivity|reflexivity].
  sq. rewrite crypt_unprotect_alone. sq. cbn [fp_crypt join].
  destruct (crypt_unprotect P lib x (IoBuf hdr) payload out fs) as [[[[x1 [st w]] mem] fs1]|u|]; cbn [obind]; [|reflexivity|reflexivity].
  destruct st; destruct m; reflexivity.
Qed.

Lemma join_self : forall f, join (fp_max f) (heap_of f) (fp_crypt f) = f.
Proof. intros []. reflexivity. Qed.

(* One call. *)
Lemma call_alone : forall P lib al f op fs,
  match fstep P lib al f op fs with
  | Done (f', r) => exists gs, alone (call_c P lib al (heap_of f) op fs) (fp_crypt f) = Done (fp_crypt f', ((heap_of f', r), gs))
  | Undef u => alone (call_c P lib al (heap_of f) op fs) (fp_crypt f) = Undef u
  | NoFuel => alone (call_c P lib al (heap_of f) op fs) (fp_crypt f) = NoFuel
  end.
Proof.
  intros P lib al f op fs. destruct op as [input|input id buf|input|input buf]; cbn [call_c fstep]; rewrite alone_cbind.
  - rewrite (protect_alone P al (fp_max f)), join_self.
    destruct (fp_protect P al f input fs) as [[[[f1 st] bs] gs]|u|]; cbn [obind]; [|reflexivity|reflexivity].
    exists gs. reflexivity.
  - rewrite (protect_into_alone P (fp_max f)), join_self.
    destruct (fp_protect_into P f input id (IoBuf buf) fs) as [[[[f1 st] bs] gs]|u|]; cbn [obind]; [|reflexivity|reflexivity].
    exists gs. reflexivity.
  - rewrite (unprotect_alone P lib al (fp_max f)), join_self.
    destruct (fp_unprotect P lib al f input fs) as [[[[f1 st] bs] gs]|u|]; cbn [obind]; [|reflexivity|reflexivity].
    exists gs. reflexivity.
  - rewrite (unprotect_into_alone P lib (fp_max f)), join_self.
    destruct (fp_unprotect_into P lib f input (IoBuf buf) fs) as [[[[[f1 st] bs] n] gs]|u|]; cbn [obind]; [|reflexivity|reflexivity].
    exists gs. reflexivity.
Qed.

(* ---- directions ---- *)
Lemma outbound_call : forall P lib al m op, writes op -> outboundC (call_c P lib al m op).
Proof.
  intros P lib al m op W. destruct op as [input|input id buf|input|input buf]; cbn in W; try contradiction; cbn [call_c].
  - apply outbound_cbind; [apply outbound_protect|]. intros [[m1 st] bs]. apply outbound_cret.
  - apply outbound_cbind; [|intros [[m1 st] bs]; apply outbound_cret].
    unfold fp_protect_into_c. ob; apply outbound_loop.
Qed.

Lemma inbound_call : forall P lib al m op, reads op -> inboundC (call_c P lib al m op).
Proof.
  intros P lib al m op W. destruct op as [input|input id buf|input|input buf]; cbn in W; try contradiction; cbn [call_c].
  - apply inbound_cbind; [apply inbound_unprotect|]. intros [[m1 st] bs]. apply inbound_cret.
  - apply inbound_cbind; [|intros [[[m1 st] bs] n]; apply inbound_cret].
    unfold fp_unprotect_into_c, number_unprotect_c. ib. apply inbound_crypt_unprotect.
Qed.

(* ---- what a thread has yet to do, as one program ---- *)
Section Sides.
Variables (P : prims) (lib : ssl_lib) (al : allocator).

Fixpoint calls (acc : list fres) (m : heap) (ops : list (fop * faults)) : prog crypt (heap * list fres) :=
  match ops with
  | [] => Ret (m, acc)
  | (op, fs) :: r => pbind (call_c P lib al m op fs) (fun '((m, res), _) => calls (acc ++ [res]) m r)
  end.
Definition rest (t : side) : prog crypt (heap * list fres) :=
  match sd_now t with
  | None => calls (sd_done t) (sd_heap t) (sd_todo t)
  | Some p => pbind p (fun '((m, res), _) => calls (sd_done t ++ [res]) m (sd_todo t))
  end.

Lemma calls_alone : forall ops acc f,
  match frun P lib al f ops with
  | Done (f', rs) => alone (calls acc (heap_of f) ops) (fp_crypt f) = Done (fp_crypt f', (heap_of f', acc ++ rs))
  | _ => True
  end.
Proof.
  induction ops as [|[op fs] ops IH]; intros acc f; cbn [frun calls].
  - rewrite app_nil_r. reflexivity.
  - rewrite alone_pbind. pose proof (call_alone P lib al f op fs) as H.
    destruct (fstep P lib al f op fs) as [[f1 r]|u|]; cbn [obind]; [|exact I|exact I].
    destruct H as [gs ->]. cbn [obind]. specialize (IH (acc ++ [r]) f1).
    destruct (frun P lib al f1 ops) as [[f2 rs]|u|]; cbn [obind]; [|exact I|exact I].
    rewrite IH, <- app_assoc. reflexivity.
Qed.

Lemma outbound_calls : forall ops acc m, Forall (fun p => writes (fst p)) ops -> outbound (calls acc m ops).
Proof.
  induction ops as [|[op fs] ops IH]; intros acc m H; cbn [calls]; [constructor|].
  inversion H; subst. apply outbound_bind; [apply outbound_call; assumption|]. intros [[m1 r] gs]. apply IH. assumption.
Qed.
Lemma inbound_calls : forall ops acc m, Forall (fun p => reads (fst p)) ops -> inbound (calls acc m ops).
Proof.
  induction ops as [|[op fs] ops IH]; intros acc m H; cbn [calls]; [constructor|].
  inversion H; subst. apply inbound_bind; [apply inbound_call; assumption|]. intros [[m1 r] gs]. apply IH. assumption.
Qed.

(* Every result that has been recorded stays. *)
Inductive returns {A} (Q : A -> Prop) : prog crypt A -> Prop :=
| RT_ret : forall a, Q a -> returns Q (Ret a)
| RT_step : forall B (f : crypt -> outcome (crypt * B)) k, (forall b, returns Q (k b)) -> returns Q (Step f k).
Lemma returns_bind : forall A B (Q : B -> Prop) (p : prog crypt A) k, (forall a, returns Q (k a)) -> returns Q (pbind p k).
Proof. induction p as [a|C f k' IH]; intros k H; cbn [pbind]; [apply H|constructor; auto]. Qed.
Lemma returns_alone : forall A (Q : A -> Prop) p, returns Q p -> forall x y a, alone p x = Done (y, a) -> Q a.
Proof.
  intros A Q p H. induction H as [a Ha|B f k Hk IH]; intros x y a0 E; cbn in E; [injection E as _ <-; exact Ha|].
  destruct (f x) as [[x1 b]|u|]; cbn in E; try discriminate. eauto.
Qed.
Lemma returns_impl : forall A (Q R : A -> Prop) p, (forall a, Q a -> R a) -> returns Q p -> returns R p.
Proof. intros A Q R p H K. induction K; constructor; auto. Qed.

Lemma returns_step : forall A (Q : A -> Prop) p, returns Q p ->
  match p with Ret a => Q a | Step f k => forall b, returns Q (k b) end.
Proof. intros A Q p []; assumption. Qed.

Definition extends (acc : list fres) (r : heap * list fres) : Prop := exists later, snd r = acc ++ later.
Lemma calls_extends : forall ops acc m, returns (extends acc) (calls acc m ops).
Proof.
  induction ops as [|[op fs] ops IH]; intros acc m; cbn [calls].
  - constructor. exists []. rewrite app_nil_r. reflexivity.
  - apply returns_bind. intros [[m1 r] gs]. eapply returns_impl; [|apply IH].
    intros a [later E]. exists (r :: later). rewrite E, <- app_assoc. reflexivity.
Qed.
Lemma rest_extends : forall t, returns (extends (sd_done t)) (rest t).
Proof.
  intro t. unfold rest. destruct (sd_now t) as [p|]; [|apply calls_extends].
  apply returns_bind. intros [[m1 r] gs]. eapply returns_impl; [|apply calls_extends].
  intros a [later E]. exists (r :: later). rewrite E, <- app_assoc. reflexivity.
Qed.

(* A step of the thread is a step of that program, or leaves it as it is. *)
Lemma step_rest : forall x t,
  match side_step P lib al x t with
  | Done (x', t') => (x' = x /\ rest t' = rest t) \/
      (exists B (f : crypt -> outcome (crypt * B)) k b, rest t = Step f k /\ f x = Done (x', b) /\ rest t' = k b)
  | Undef v => exists B (f : crypt -> outcome (crypt * B)) k, rest t = Step f k /\ f x = Undef v
  | NoFuel => exists B (f : crypt -> outcome (crypt * B)) k, rest t = Step f k /\ f x = NoFuel
  end.
Proof.
  intros x [m [p|] todo dn]; unfold side_step, rest; cbn [sd_now sd_heap sd_todo sd_done].
  - destruct p as [[[m1 r] gs]|B f k]; [left; split; reflexivity|].
    destruct (f x) as [[x1 b]|u|] eqn:E; cbn [obind sd_now sd_heap sd_todo sd_done pbind].
    + right. exists B, f. do 2 eexists. split; [reflexivity|]. split; [exact E|]. reflexivity.
    + do 3 eexists. split; [reflexivity|exact E].
    + do 3 eexists. split; [reflexivity|exact E].
  - destruct todo as [|[op fs] r]; left; split; reflexivity.
Qed.

Lemma pair_both : forall sched x t u, exists sched',
  match pair_run P lib al sched x t u with
  | Done (x', t', u') => both sched' (rest t) (rest u) x = Done (x', rest t', rest u')
  | Undef v => both sched' (rest t) (rest u) x = Undef v
  | NoFuel => both sched' (rest t) (rest u) x = NoFuel
  end.
Proof.
  induction sched as [|turn sched IH]; intros x t u; cbn [pair_run]; [exists []; reflexivity|].
  destruct turn.
  - pose proof (step_rest x t) as S. destruct (side_step P lib al x t) as [[x1 t1]|v|]; cbn [obind].
    + destruct (IH x1 t1 u) as [sc H]. destruct S as [[-> S]|(B & f & k & b & S1 & S2 & S3)].
      * exists sc. rewrite <- S. exact H.
      * exists (true :: sc). cbn [both]. rewrite S1, S2. cbn [obind]. rewrite <- S3. exact H.
    + destruct S as (B & f & k & S1 & S2). exists [true]. cbn [both]. rewrite S1, S2. reflexivity.
    + destruct S as (B & f & k & S1 & S2). exists [true]. cbn [both]. rewrite S1, S2. reflexivity.
  - pose proof (step_rest x u) as S. destruct (side_step P lib al x u) as [[x1 t1]|v|]; cbn [obind].
    + destruct (IH x1 t t1) as [sc H]. destruct S as [[-> S]|(B & f & k & b & S1 & S2 & S3)].
      * exists sc. rewrite <- S. exact H.
      * exists (false :: sc). cbn [both]. rewrite S1, S2. cbn [obind]. rewrite <- S3. exact H.
    + destruct S as (B & f & k & S1 & S2). exists [false]. cbn [both]. rewrite S1, S2. reflexivity.
    + destruct S as (B & f & k & S1 & S2). exists [false]. cbn [both]. rewrite S1, S2. reflexivity.
Qed.

Lemma pair_app : forall s1 s2 x t u, pair_run P lib al (s1 ++ s2) x t u =
  obind (pair_run P lib al s1 x t u) (fun '(x, t, u) => pair_run P lib al s2 x t u).
Proof.
  induction s1 as [|[|] s1 IH]; intros s2 x t u; cbn [app pair_run]; [reflexivity| |];
    (destruct (side_step P lib al x _) as [[x1 t1]|v|]; cbn [obind]; [apply IH|reflexivity|reflexivity]).
Qed.

(* ---- one thread running alone ---- *)
Fixpoint side_run (n : nat) (x : crypt) (t : side) : outcome (crypt * side) :=
  match n with
  | O => Done (x, t)
  | S n => obind (side_step P lib al x t) (fun '(x, t) => side_run n x t)
  end.
Lemma side_run_add : forall n k x t, side_run (n + k) x t = obind (side_run n x t) (fun '(x, t) => side_run k x t).
Proof.
  induction n as [|n IH]; intros k x t; cbn [Nat.add side_run obind]; [reflexivity|].
  destruct (side_step P lib al x t) as [[x1 t1]|v|]; cbn [obind]; [apply IH|reflexivity|reflexivity].
Qed.
Lemma pair_first : forall n x t u, pair_run P lib al (repeat true n) x t u =
  obind (side_run n x t) (fun '(x, t) => Done (x, t, u)).
Proof.
  induction n as [|n IH]; intros x t u; cbn [repeat pair_run side_run obind]; [reflexivity|].
  destruct (side_step P lib al x t) as [[x1 t1]|v|]; cbn [obind]; [apply IH|reflexivity|reflexivity].
Qed.
Lemma pair_second : forall n x t u, pair_run P lib al (repeat false n) x t u =
  obind (side_run n x u) (fun '(x, u) => Done (x, t, u)).
Proof.
  induction n as [|n IH]; intros x t u; cbn [repeat pair_run side_run obind]; [reflexivity|].
  destruct (side_step P lib al x u) as [[x1 t1]|v|]; cbn [obind]; [apply IH|reflexivity|reflexivity].
Qed.

Lemma run_now : forall p m todo dn x, exists n,
  match alone p x with
  | Done (x', ((m', res), _)) =>
    side_run n x {| sd_heap := m; sd_now := Some p; sd_todo := todo; sd_done := dn |} =
    Done (x', {| sd_heap := m'; sd_now := None; sd_todo := todo; sd_done := dn ++ [res] |})
  | Undef v => side_run n x {| sd_heap := m; sd_now := Some p; sd_todo := todo; sd_done := dn |} = Undef v
  | NoFuel => side_run n x {| sd_heap := m; sd_now := Some p; sd_todo := todo; sd_done := dn |} = NoFuel
  end.
Proof.
  induction p as [[[m' res] gs]|B f k IH]; intros m todo dn x; cbn [alone].
  - exists 1%nat. reflexivity.
  - destruct (f x) as [[x1 b]|v|] eqn:E; cbn [obind].
    + destruct (IH b m todo dn x1) as [n H]. exists (S n). cbn [side_run]. unfold side_step. cbn [sd_now sd_heap sd_todo sd_done].
      rewrite E. cbn [obind]. exact H.
    + exists 1%nat. cbn [side_run]. unfold side_step. cbn [sd_now]. rewrite E. reflexivity.
    + exists 1%nat. cbn [side_run]. unfold side_step. cbn [sd_now]. rewrite E. reflexivity.
Qed.

Lemma run_todo : forall todo m dn x, exists n,
  match alone (calls dn m todo) x with
  | Done (x', (m', rs)) =>
    side_run n x {| sd_heap := m; sd_now := None; sd_todo := todo; sd_done := dn |} =
    Done (x', {| sd_heap := m'; sd_now := None; sd_todo := []; sd_done := rs |})
  | Undef v => side_run n x {| sd_heap := m; sd_now := None; sd_todo := todo; sd_done := dn |} = Undef v
  | NoFuel => side_run n x {| sd_heap := m; sd_now := None; sd_todo := todo; sd_done := dn |} = NoFuel
  end.
Proof.
  induction todo as [|[op fs] todo IH]; intros m dn x; cbn [calls].
  - exists O. reflexivity.
  - rewrite alone_pbind. destruct (run_now (call_c P lib al m op fs) m todo dn x) as [n1 H1].
    destruct (alone (call_c P lib al m op fs) x) as [[x1 [[m1 r] gs]]|v|]; cbn [obind].
    + destruct (IH m1 (dn ++ [r]) x1) as [n2 H2]. exists (S (n1 + n2)). cbn [side_run]. unfold side_step at 1 2 3. cbn [sd_now sd_todo sd_heap sd_done obind].
      rewrite side_run_add, H1. cbn [obind]. exact H2.
    + exists (S n1). cbn [side_run]. unfold side_step at 1. cbn [sd_now sd_todo sd_heap sd_done obind]. exact H1.
    + exists (S n1). cbn [side_run]. unfold side_step at 1. cbn [sd_now sd_todo sd_heap sd_done obind]. exact H1.
Qed.

Lemma run_side : forall t x, exists n,
  match alone (rest t) x with
  | Done (x', (m', rs)) =>
    side_run n x t = Done (x', {| sd_heap := m'; sd_now := None; sd_todo := []; sd_done := rs |})
  | Undef v => side_run n x t = Undef v
  | NoFuel => side_run n x t = NoFuel
  end.
Proof.
  intros [m [p|] todo dn] x; unfold rest; cbn [sd_now sd_heap sd_todo sd_done]; [|apply run_todo].
  rewrite alone_pbind. destruct (run_now p m todo dn x) as [n1 H1].
  destruct (alone p x) as [[x1 [[m1 r] gs]]|v|]; cbn [obind]; [|exists n1; exact H1|exists n1; exact H1].
  destruct (run_todo todo m1 (dn ++ [r]) x1) as [n2 H2]. exists (n1 + n2)%nat. rewrite side_run_add, H1. exact H2.
Qed.

(* Every schedule can be completed. *)
Lemma finish_pair : forall x t u, exists sched,
  match pair_run P lib al sched x t u with
  | Done (_, t', u') => side_end t' /\ side_end u'
  | _ => True
  end.
Proof.
  intros x t u. destruct (run_side t x) as [n1 H1].
  destruct (alone (rest t) x) as [[x1 [m1 r1]]|v|].
  - destruct (run_side u x1) as [n2 H2]. exists (repeat true n1 ++ repeat false n2).
    rewrite pair_app, pair_first, H1. cbn [obind]. rewrite pair_second.
    destruct (alone (rest u) x1) as [[x2 [m2 r2]]|v|]; rewrite H2; cbn [obind]; [|exact I|exact I].
    repeat split.
  - exists (repeat true n1). rewrite pair_first, H1. exact I.
  - exists (repeat true n1). rewrite pair_first, H1. exact I.
Qed.

(* ---- the writes alone ---- *)
Lemma writes_total : forall ws f din d, prims_ok P -> alloc_ok al ->
  half_rel P (cx_in (fp_crypt f)) din -> half_rel P (cx_out (fp_crypt f)) d ->
  Forall (fun p => writes (fst p)) ws -> fops_ok ws -> exists fp rw, frun P lib al f ws = Done (fp, rw).
Proof.
  induction ws as [|[op fs] ws IH]; intros f din d HP HA Ri Ro HW HO; cbn [frun]; [eauto|].
  inversion HW as [|? ? W1 W2]; subst. inversion HO as [|? ? O1 O2]; subst. cbn [fst] in W1, O1.
  assert (N : exists f1 r1 d1, fstep P lib al f op fs = Done (f1, r1) /\ half_rel P (cx_in (fp_crypt f1)) din /\ half_rel P (cx_out (fp_crypt f1)) d1).
  { destruct op as [input|input id buf|input|input buf]; cbn in W1; try contradiction; cbn [fstep].
    - destruct (protect_spec P lib al f input fs din d HP HA Ri Ro O1) as (h' & st & bufs & fs' & cops & crs & k & A & _ & _ & _ & R & _).
      cbn zeta in A. rewrite A. cbn [obind]. do 3 eexists. split; [reflexivity|]. cbn [fp_crypt]. split; [exact Ri|exact R].
    - assert (Hl : sum_lens input < two64) by (cbn in O1; unfold protected_size in O1; lia).
      destruct (protect_into_spec P lib f input id buf fs din d HP Ri Ro Hl) as (h' & st & out' & fs' & cops & crs & k & A & _ & _ & _ & _ & R & _).
      cbn zeta in A. rewrite A. cbn [obind]. do 3 eexists. split; [reflexivity|].
      destruct (is_ok st); cbn [fp_crypt with_crypt fp_destroy]; (split; [exact Ri|exact R]). }
  destruct N as (f1 & r1 & d1 & -> & N1 & N2). cbn [obind].
  destruct (IH f1 din d1 HP HA N1 N2 W2 O2) as (fp & rw & ->). cbn [obind]. eauto.
Qed.
End Sides.

(* ---- the two threads ---- *)
Lemma two_threads : forall P lib al a ops rs f, protector P lib al a ops rs f ->
  forall ws rds fu ru, Forall (fun p => writes (fst p)) ws -> fops_ok ws -> Forall (fun p => reads (fst p)) rds ->
  frun P lib al f rds = Done (fu, ru) ->
  exists fp rw, frun P lib al f ws = Done (fp, rw) /\
  forall sched,
  match pair_run P lib al sched (fp_crypt f) (side_start f ws) (side_start f rds) with
  | Done (x, t, u) =>
    (exists later, rw = sd_done t ++ later) /\ (exists later, ru = sd_done u ++ later) /\
    (side_end t -> sd_done t = rw) /\ (side_end u -> sd_done u = ru) /\
    (side_end t -> side_end u -> x = set_out (fp_crypt fu) (cx_out (fp_crypt fp))) /\
    (exists sched', match pair_run P lib al sched' x t u with
                    | Done (_, t', u') => side_end t' /\ side_end u'
                    | Undef v => v = UbUseAfterFree
                    | NoFuel => False
                    end)
  | Undef v => v = UbUseAfterFree /\ hc_epoch (cx_in (fp_crypt f)) < hc_epoch (cx_in (fp_crypt fu))
  | NoFuel => False
  end.
Proof.
  intros P lib al a ops rs f Hp ws rds fu ru HW HO HR Eu. pose proof Hp as (HP & HA & _).
  destruct (protector_winv _ _ _ _ _ _ _ Hp) as (d & din & W & Ro & Ri).
  destruct (writes_total P lib al ws f din d HP HA Ri Ro HW HO) as (fp & rw & Ew).
  exists fp, rw. split; [exact Ew|].
  pose proof (calls_alone P lib al ws [] f) as A1. rewrite Ew in A1. cbn [app] in A1.
  pose proof (calls_alone P lib al rds [] f) as A2. rewrite Eu in A2. cbn [app] in A2.
  assert (T : together (fp_crypt fp) (heap_of fp, rw) (fp_crypt fu) (heap_of fu, ru) (epoch_in (fp_crypt f))
    (fp_crypt f) (rest P lib al (side_start f ws)) (rest P lib al (side_start f rds))).
  { exists (fp_crypt f), (fp_crypt f). rewrite set_out_same. split; [reflexivity|].
    split; [exact (half_tag_spec _ _ _ Ri)|]. split; [exact (half_tag_spec _ _ _ Ri)|]. split; [apply N.le_refl|].
    split; [left; split; [apply outbound_calls; exact HW|exact A1]|]. split; [apply inbound_calls; exact HR|exact A2]. }
  assert (S : forall sched, match pair_run P lib al sched (fp_crypt f) (side_start f ws) (side_start f rds) with
    | Done (x, t, u) => together (fp_crypt fp) (heap_of fp, rw) (fp_crypt fu) (heap_of fu, ru) (epoch_in (fp_crypt f))
        x (rest P lib al t) (rest P lib al u)
    | Undef v => v = UbUseAfterFree /\ hc_epoch (cx_in (fp_crypt f)) < hc_epoch (cx_in (fp_crypt fu))
    | NoFuel => False
    end).
  { intro sched. destruct (pair_both P lib al sched (fp_crypt f) (side_start f ws) (side_start f rds)) as [sc H].
    pose proof (both_sound _ _ _ _ _ sc _ _ _ T) as B.
    destruct (pair_run P lib al sched (fp_crypt f) (side_start f ws) (side_start f rds)) as [[[x t] u]|v|]; rewrite H in B; exact B. }
  intro sched. pose proof (S sched) as H.
  destruct (pair_run P lib al sched (fp_crypt f) (side_start f ws) (side_start f rds)) as [[[x t] u]|v|] eqn:E; [|exact H|exact H].
  pose proof H as (z & w & _ & _ & _ & _ & H1 & _ & H2).
  assert (E1 : forall t, side_end t -> rest P lib al t = Ret (sd_heap t, sd_done t)).
  { intros t0 [N1 N2]. unfold rest. rewrite N1, N2. reflexivity. }
  apply together_done in H. destruct H as (D1 & D2 & D3).
  split.
  { destruct H1 as [[_ H1]|(n & k & K1 & _ & K2 & _)].
    - apply (returns_alone _ _ _ (rest_extends P lib al t)) in H1. exact H1.
    - pose proof (rest_extends P lib al t) as X. rewrite K1 in X.
      assert (X' : returns (extends (sd_done t)) (k 16)).
      { apply returns_step in X. exact (X 16). }
      apply (returns_alone _ _ _ X') in K2. exact K2. }
  split; [apply (returns_alone _ _ _ (rest_extends P lib al u)) in H2; exact H2|].
  split. { intro Et. specialize (D1 _ (E1 _ Et)). congruence. }
  split. { intro Et. specialize (D2 _ (E1 _ Et)). congruence. }
  split. { intros Et Et'. exact (D3 _ _ (E1 _ Et) (E1 _ Et')). }
  destruct (finish_pair P lib al x t u) as [sc F]. exists sc.
  pose proof (S (sched ++ sc)) as L. rewrite pair_app, E in L. cbn [obind] in L.
  destruct (pair_run P lib al sc x t u) as [[[x' t'] u']|v|]; [exact F|exact (proj1 L)|exact L].
Qed.

(* Whenever the reads install a new key there is a schedule in which a Protect
   call uses the freed object. *)
Lemma race_always : forall P lib al a ops rs f, protector P lib al a ops rs f ->
  forall input fs ws rds fu ru, frun P lib al f rds = Done (fu, ru) ->
  hc_epoch (cx_in (fp_crypt f)) <> hc_epoch (cx_in (fp_crypt fu)) ->
  exists sched, pair_run P lib al sched (fp_crypt f) (side_start f ((FProtect input, fs) :: ws)) (side_start f rds) =
    Undef UbUseAfterFree.
Proof.
  intros P lib al a ops rs f Hp input fs ws rds fu ru Eu Ne.
  destruct (protector_winv _ _ _ _ _ _ _ Hp) as (d & din & W & Ro & Ri).
  pose proof (tag16_load _ (half_tag_spec _ _ _ Ri : tag16 (fp_crypt f))) as L.
  pose proof (calls_alone P lib al rds [] f) as A2. rewrite Eu in A2. cbn [app] in A2.
  destruct (run_todo P lib al rds (heap_of f) [] (fp_crypt f)) as [n H]. rewrite A2 in H.
  exists ([true; true] ++ repeat false n ++ [true]).
  rewrite pair_app. cbn [pair_run]. unfold side_start at 1. unfold side_step at 1. cbn [sd_now sd_todo sd_heap sd_done obind].
  unfold side_step at 1. cbn [sd_now]. unfold call_c, fp_protect_c, number_bytes_c, overhead_c, tag_in, cbind.
  cbn [act pbind load_in obind]. rewrite L. unfold cret.
  rewrite pair_app, pair_second. unfold side_start. rewrite H. cbn [obind pair_run].
  unfold side_step. cbn [sd_now]. unfold use_in at 1, use_tag.
  destruct (N.eqb_spec (epoch_in (fp_crypt f)) (hc_epoch (cx_in (fp_crypt fu)))) as [K|K]; [contradiction|]. reflexivity.
Qed.
