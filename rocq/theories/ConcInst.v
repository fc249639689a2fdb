(* The mutexes of half connections and frame protectors: instances of
   ConcLinear. *)
From Coq Require Import List NArith ZArith Bool Lia ZifyBool ZifyNat ZifyN PeanoNat.
From Verif Require Import Base BaseProofs Aead Hkdf HalfConn SpecAead SpecTls HalfProofs HalfRun HalfRunProofs
  Options HsHandler Crypter SpecRecord CrypterProofs CrypterRun CrypterRunProofs FrameProt SpecFrame FrameRun FrameProofs
  FrameFinal Conc ConcAlone ConcRun ConcLinear ConcTag ConcBoth.
Import ListNotations.
Local Open Scope N_scope.

(* ---- programs whose steps are in T ---- *)
Section Steps.
Context {S : Type}.
Variable T : S -> S -> Prop.
Hypothesis Trefl : forall s, T s s.
Hypothesis Ttrans : forall a b c, T a b -> T b c -> T a c.

Inductive steps {A} : prog S A -> Prop :=
| ST_ret : forall a, steps (Ret a)
| ST_step : forall B (f : S -> outcome (S * B)) k,
    (forall s s1 b, f s = Done (s1, b) -> T s s1) -> (forall b, steps (k b)) -> steps (Step f k).

Lemma steps_bind : forall A B (p : prog S A) (k : A -> prog S B),
  steps p -> (forall a, steps (k a)) -> steps (pbind p k).
Proof. intros A B p k H Hk. induction H; cbn [pbind]; [apply Hk|constructor; assumption]. Qed.

Definition stepsC {A} (m : C S A) : Prop := forall fs, steps (m fs).
Lemma steps_cbind : forall A B (m : C S A) (k : A -> C S B),
  stepsC m -> (forall a, stepsC (k a)) -> stepsC (cbind m k).
Proof. intros A B m k H Hk fs. apply steps_bind; [apply H|]. intros [a fs1]. apply Hk. Qed.
Lemma steps_cret : forall A (a : A), stepsC (cret a).
Proof. intros A a fs. constructor. Qed.
Lemma steps_own : forall A (o : outcome A), stepsC (own o).
Proof.
  intros A o fs. constructor; [|intro; constructor]. intros s s1 b E. destruct o; cbn in E; try discriminate.
  injection E as <- _. apply Trefl.
Qed.
Lemma steps_act : forall A (f : S -> outcome (S * A)),
  (forall s s1 b, f s = Done (s1, b) -> T s s1) -> stepsC (act f).
Proof. intros A f H fs. constructor; [exact H|]. intro; constructor. Qed.
Lemma steps_actM : forall A (f : S -> M (S * A)),
  (forall s, post (f s) (fun r => T s (fst r))) -> stepsC (actM f).
Proof.
  intros A f H fs. constructor; [|intro; constructor]. intros s s1 b E.
  destruct (f s fs) as [[[s2 a] fs2]|u|] eqn:K; cbn in E; try discriminate. injection E as <- _. exact (H _ _ _ _ K).
Qed.

Lemma steps_alone : forall A (p : prog S A), steps p -> forall s s' r, alone p s = Done (s', r) -> T s s'.
Proof.
  intros A p H. induction H as [a|B f k Hf Hk IH]; intros s s' r E; cbn in E.
  - injection E as <- _. apply Trefl.
  - destruct (f s) as [[s1 b]|u|] eqn:K; cbn in E; try discriminate. eapply Ttrans; [eapply Hf; exact K|eapply IH; exact E].
Qed.

Variable Inv : S -> Prop.
Lemma leads_intro : forall A (p : prog S A), steps p -> forall s s' r, alone p s = Done (s', r) ->
  (forall m, T s m -> T m s' -> Inv m) -> leads Inv p s s' r.
Proof.
  intros A p H. induction H as [a|B f k Hf Hk IH]; intros s s' r E HI; cbn in E; cbn [leads].
  - injection E as <- <-. split; auto.
  - destruct (f s) as [[s1 b]|u|] eqn:K; cbn in E; try discriminate.
    split. { apply HI; [apply Trefl|]. eapply Ttrans; [eapply Hf; exact K|eapply steps_alone; [apply Hk|exact E]]. }
    exists s1, b. split; [exact K || reflexivity|]. apply IH; [exact E|]. intros m H1 H2. apply HI; [|exact H2].
    eapply Ttrans; [eapply Hf; exact K|exact H1].
Qed.

Lemma quiet_alone : forall Q (p : prog S Q) q s, quiet Inv p q -> Inv s -> alone p s = Done (s, q).
Proof.
  intros Q p q s. induction p as [q'|B f k IH]; intros H HI; cbn [quiet alone] in *.
  - congruence.
  - destruct (H _ HI) as (b & E & Hb). rewrite E. cbn [obind]. apply IH; assumption.
Qed.
End Steps.

Lemma seq_run_ext : forall S O R (f g : S -> O -> outcome (S * R)) os s,
  (forall s o, f s o = g s o) -> seq_run f s os = seq_run g s os.
Proof.
  intros S O R f g os. induction os as [|o os IH]; intros s H; cbn; [reflexivity|].
  rewrite H. destruct (g s o) as [[s1 r]|u|]; cbn; [|reflexivity|reflexivity]. rewrite (IH s1 H). reflexivity.
Qed.

Lemma explains_ext : forall S O Q R (f g : S -> list O -> outcome (S * list R)) s0 calls (c : config S O Q R) l,
  (forall s os, f s os = g s os) -> explains f s0 calls c l -> explains g s0 calls c l.
Proof.
  intros S O Q R f g s0 calls c l H ((s1 & H1 & H2) & H3). split; [|exact H3]. exists s1. rewrite <- H. auto.
Qed.

(* ---- the nonces of a half connection ---- *)
Definition extends (h h' : half) : Prop := exists l, hc_used h' = hc_used h ++ l.
Lemma extends_refl : forall h, extends h h.
Proof. intro h. exists []. rewrite app_nil_r. reflexivity. Qed.
Lemma extends_trans : forall a b c, extends a b -> extends b c -> extends a c.
Proof. intros a b c [l1 E1] [l2 E2]. exists (l1 ++ l2). rewrite E2, E1, app_assoc. reflexivity. Qed.
Lemma extends_same : forall h h', hc_used h' = hc_used h -> extends h h'.
Proof. intros h h' E. exists []. rewrite E, app_nil_r. reflexivity. Qed.

Lemma NoDup_app_l : forall A (a b : list A), NoDup (a ++ b) -> NoDup a.
Proof.
  intros A a b. induction a as [|x a IH]; cbn; intro H; [constructor|]. inversion H; subst.
  constructor; [|auto]. intro Hin. apply H2. apply in_or_app. auto.
Qed.

Lemma app_same : forall A (a b c d : list A), a ++ b = c ++ d -> length a = length c -> a = c.
Proof.
  intros A a. induction a as [|x a IH]; intros b [|y c] d E L; cbn in *; try discriminate; [reflexivity|].
  injection E as -> E. f_equal. eapply IH; [exact E|congruence].
Qed.

Lemma in_order_prefix : forall P s q S h h', extends h h' -> in_order P s q S h' -> in_order P s q S h.
Proof.
  intros P s q S h h' [l E] [H1 H2]. split.
  - rewrite E in H1. eapply NoDup_app_l; exact H1.
  - intro e. specialize (H2 e). assert (K : nonces h' e = nonces h e ++ map snd (filter (fun u => fst u =? e) l)).
    { unfold nonces. rewrite E, filter_app, map_app. reflexivity. }
    rewrite K, app_length, seq_app, map_app in H2.
    eapply app_same; [exact H2|]. rewrite map_length, seq_length. reflexivity.
Qed.

Lemma used_in_order : forall P s q S h d, used_inv P s q S h d -> in_order P s q S h.
Proof.
  intros P s q S h d U. split.
  - apply NoDup_pairs. intro e. eapply nonces_NoDup; exact U.
  - intro e. destruct U as (_ & _ & cnt & N1 & _). rewrite (N1 e) at 1. f_equal.
    rewrite N1, map_length, seq_length. reflexivity.
Qed.

(* The bodies of the locked methods only add to the record of used nonces. *)
Ltac hs := repeat (cbn beta iota zeta;
  match goal with
  | |- stepsC _ (cbind _ _) => apply steps_cbind; [|intro]
  | |- stepsC _ (cret _) => apply steps_cret
  | |- stepsC _ (own _) => apply steps_own; [apply extends_refl]
  | |- stepsC _ (if ?b then _ else _) => destruct b
  | |- stepsC _ (match ?x with _ => _ end) => destruct x
  end).

Lemma with_aead_extends : forall h c, extends h (with_aead h c).
Proof. intros. apply extends_same. reflexivity. Qed.
Lemma with_keys_extends : forall h a b c, extends h (with_keys h a b c).
Proof. intros. apply extends_same. reflexivity. Qed.

Lemma check_extends : stepsC extends check_usable.
Proof. apply steps_act. intros s s1 b E. injection E as <- _. apply extends_refl. Qed.
Lemma nonce_extends : stepsC extends read_nonce.
Proof.
  apply steps_act. intros s s1 b E. destruct (nonce_mask s) as [[n h]|u|]; cbn in E; try discriminate.
  injection E as <- _. apply extends_refl.
Qed.
Lemma increment_extends : forall n, stepsC extends (increment n).
Proof. intro n. apply steps_act. intros s s1 b E. injection E as <- _. eexists. reflexivity. Qed.
Lemma through_extends : forall f, stepsC extends (through_crypter f).
Proof.
  intro f. apply steps_actM. intro h. destruct (hc_aead h); [|apply post_undef].
  apply post_bind; intros [[c1 st] out]. apply post_ret. apply with_aead_extends.
Qed.
Lemma mark_extends : forall st, stepsC extends (mark_failed st).
Proof. intro st. apply steps_act. intros s s1 b E. injection E as <- _. apply with_keys_extends. Qed.

Lemma encrypt_extends : forall P aad pt out, stepsC extends (encrypt_body P aad pt out).
Proof.
  intros. unfold encrypt_body. hs; [apply check_extends|apply nonce_extends|apply increment_extends|apply through_extends].
Qed.
Lemma decrypt_extends : forall P aad pt out, stepsC extends (decrypt_body P aad pt out).
Proof.
  intros. unfold decrypt_body. hs; [apply check_extends|apply nonce_extends|apply increment_extends|apply through_extends].
Qed.
Lemma update_extends : forall P lib, stepsC extends (update_body P lib).
Proof.
  intros. unfold update_body. hs; try apply mark_extends.
  1-4: apply steps_actM; intro h; apply post_bind; intros; repeat match goal with x : (_ * _)%type |- _ => destruct x end;
       apply post_ret; try apply extends_refl; apply with_keys_extends.
  all: apply steps_act; intros s s1 b0 E; injection E as <- _; apply extends_same; reflexivity.
Qed.

Lemma h_body_extends : forall P lib o, steps extends (h_body P lib o).
Proof.
  intros P lib [op fs]. unfold h_body. destruct op; cbn [fst snd]; apply steps_bind.
  - apply encrypt_extends.
  - intros [[[st n] o] fs1]. apply ST_ret.
  - apply decrypt_extends.
  - intros [[[st n] o] fs1]. apply ST_ret.
  - apply update_extends.
  - intros [st fs1]. apply ST_ret.
Qed.

Definition h_step (P : prims) (lib : ssl_lib) (h : half) (o : hop * faults) : outcome (half * hres) :=
  hstep P lib h (fst o) (snd o).

Lemma h_body_alone : forall P lib o h, alone (h_body P lib o) h = h_step P lib h o.
Proof.
  intros P lib [op fs] h. unfold h_body, h_step, hstep. destruct op; cbn [fst snd]; rewrite alone_pbind.
  - rewrite encrypt_alone. destruct (half_encrypt P h aad pt (IoBuf out) fs) as [[[[h1 [st n]] o1] fs1]|u|]; reflexivity.
  - rewrite decrypt_alone. destruct (half_decrypt P h aad ct (IoBuf out) fs) as [[[[h1 [st n]] o1] fs1]|u|]; reflexivity.
  - rewrite update_alone. destruct (half_update_key P lib h fs) as [[[h1 st] fs1]|u|]; reflexivity.
Qed.

Lemma hrun_seq : forall P lib os h, seq_run (h_step P lib) h os = hrun P lib h os.
Proof.
  intros P lib os. induction os as [|[op fs] os IH]; intro h; cbn [seq_run hrun]; [reflexivity|].
  unfold h_step at 1. cbn [fst snd]. destruct (hstep P lib h op fs) as [[h1 r]|u|]; cbn [obind]; [|reflexivity|reflexivity].
  rewrite IH. reflexivity.
Qed.

Definition h_good (P : prims) (s : suite) (q : N) (S : bytes) (h : half) : Prop :=
  exists d, half_rel P h d /\ used_inv P s q S h d.

Lemma h_ready : forall P lib s q S, prims_ok P -> forall o, hop_ok (fst o) ->
  exists r, quiet (in_order P s q S) (h_pre o) r /\
    ready (h_body P lib) (h_step P lib) (in_order P s q S) (h_good P s q S) o r.
Proof.
  intros P lib s q S HP [op fs] Hop. cbn [fst] in Hop. exists (op, fs). split; [reflexivity|].
  intros h (d & R & U). destruct (hstep_spec P lib s q S h d op fs HP R U Hop) as (h' & r & E & R' & U').
  exists h', r. split; [exact E|]. split; [exists (spec_step P d op r); auto|].
  eapply (leads_intro extends extends_refl extends_trans); [apply h_body_extends|rewrite h_body_alone; exact E|].
  intros m _ Hm. eapply in_order_prefix; [exact Hm|]. eapply used_in_order; exact U'.
Qed.

Lemma half_linear : forall P lib s q S ops rs h calls,
  prims_ok P -> q < two64 -> hops_ok ops -> hreach P lib s q S ops rs h -> Forall hops_ok calls ->
  forall sched1 sched2, exists (c1 c2 : h_threads) l1 l2,
    trun h_pre (h_body P lib) (tstart h calls) sched1 = Done c1 /\
    trun h_pre (h_body P lib) c1 sched2 = Done c2 /\
    explains (hrun P lib) h calls c1 l1 /\ explains (hrun P lib) h calls c2 (l1 ++ l2) /\
    in_order P s q S (cf_mem c2) /\
    exists sched3 c3, trun h_pre (h_body P lib) c2 sched3 = Done c3 /\ finished c3.
Proof.
  intros P lib s q S ops rs h calls HP Hq Hok Hr Hc sched1 sched2.
  destruct (hreach_inv _ _ _ _ _ _ _ _ HP Hq Hok Hr) as (R & U & _).
  set (okO := fun o : hop * faults => hop_ok (fst o)).
  pose proof (mutex_linear h_pre (h_body P lib) (h_step P lib) (in_order P s q S) (h_good P s q S) okO
    (h_ready P lib s q S HP) h calls) as L.
  destruct L with (sched1 := sched1) (sched2 := sched2) as (c1 & c2 & l1 & l2 & E1 & E2 & I1 & I2).
  - exists (spec_run P (dir_start s S q) ops rs). auto.
  - eapply used_in_order; exact U.
  - exact Hc.
  - exists c1, c2, l1, l2. split; [exact E1|]. split; [exact E2|].
    split. { apply (explains_ext _ _ _ _ (seq_run (h_step P lib))); [intros; apply hrun_seq|]. eapply inv_explains; exact I1. }
    split. { apply (explains_ext _ _ _ _ (seq_run (h_step P lib))); [intros; apply hrun_seq|]. eapply inv_explains; exact I2. }
    split. { destruct I2 as (s1 & _ & _ & K & _). exact K. }
    destruct (can_finish h_pre (h_body P lib) (h_step P lib) (in_order P s q S) (h_good P s q S) okO
      (h_ready P lib s q S HP) _ _ _ _ I2) as (sc & c3 & l3 & F1 & _ & _ & F4). eauto.
Qed.
