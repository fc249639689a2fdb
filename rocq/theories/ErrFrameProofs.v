(* Proofs for C100. *)
From Coq Require Import List NArith Bool.
From Verif Require Import Base Aead Hkdf HalfConn Options HsHandler Crypter FrameProt SpecTls SpecHs SpecRecord SpecRx CrypterRun SpecFrame FrameRun
  SpecAead HalfRun ErrQueue SpecErr ErrQueueSame ErrQueueProofs ErrCrypt SpecErrCrypt ErrCryptProofs ErrFrame SpecErrFrame.
Import ListNotations.
Local Open Scope N_scope.

(* Without the errors these are the functions of FrameProt.v. *)
Lemma crypt_create_same : forall P lib a, same (crypt_create_q P lib a) (crypt_create P lib a).
Proof.
  intros. unfold crypt_create_q, crypt_create. destruct (_ =? 0); [apply same_ret|]. destruct (negb _); [apply same_ret|].
  destruct (negb _); [apply same_ret|]. destruct (ca_tls a); [apply same_ret|..]; try apply same_ret.
  apply same_bind; [apply create_same|]. intros [st|h]; [apply same_ret|].
  apply same_bind; [apply create_same|]. intros [st|h2]; apply same_ret.
Qed.
Lemma fp_create_same : forall P lib a, same (fp_create_q P lib a) (fp_create P lib a).
Proof.
  intros. unfold fp_create_q, fp_create. cbn zeta. destruct (_ || _); [apply same_ret|].
  apply same_bind; [apply crypt_create_same|]. intros [st|x]; [apply same_ret|]. same_tac.
Qed.
Lemma ploop_same : forall P fuel f c rem first out index id,
  same (protect_loop_q fuel P f c rem first out index id) (protect_loop fuel P f c rem first out index id).
Proof.
  intros P. induction fuel as [|fuel IH]; intros f c rem first out index id; cbn [protect_loop_q protect_loop].
  - destruct (negb _); [apply same_ret|]. intros e fs. reflexivity.
  - destruct (negb _); [apply same_ret|]. cbn zeta. apply same_bind; [apply same_quiet|]. intros [chunk c1].
    apply same_bind; [apply protect_same|]. intros [[x [st written]] tail].
    destruct st; try apply same_ret. apply same_bind; [apply same_quiet|]. intros o. destruct (negb _); [apply same_ret|apply IH].
Qed.
Lemma into_same : forall P f input id out, same (fp_protect_into_q P f input id out) (fp_protect_into P f input id out).
Proof.
  intros. unfold fp_protect_into_q, fp_protect_into. cbn zeta. destruct out as [buf|n].
  - apply same_bind; [apply ploop_same|]. intros [[g st] b]. apply same_ret.
  - apply same_bind; [apply same_quiet|]. intros [chunk c]. apply same_bind; [apply protect_same|]. intros [[x [st w]] o]. apply same_ret.
Qed.
Lemma fprotect_same : forall P al f input, same (fp_protect_q P al f input) (fp_protect P al f input).
Proof.
  intros. unfold fp_protect_q, fp_protect. apply same_bind; [apply same_quiet|]. intros size. cbn [fp_alloc].
  apply same_bind; [apply into_same|]. intros [[g st] o]. same_tac.
Qed.
Lemma uinto_same : forall P lib f input out, same (fp_unprotect_into_q P lib f input out) (fp_unprotect_into P lib f input out).
Proof.
  intros. unfold fp_unprotect_into_q, fp_unprotect_into. apply same_bind; [apply same_quiet|]. intros n.
  destruct (n =? 0); [apply same_ret|]. apply same_bind; [apply same_quiet|]. intros [st|[hdr [vs on]]]; [apply same_ret|].
  apply same_bind; [apply same_quiet|]. intros [st|[payload c]]; [apply same_ret|].
  apply same_bind; [apply unprotect_same|]. intros [[x [st w]] o]. cbn zeta. destruct st; apply same_ret.
Qed.
Lemma uloop_same : forall P lib al fuel f c rem acc, same (unprotect_loop_q fuel P lib al f c rem acc) (unprotect_loop fuel P lib al f c rem acc).
Proof.
  intros P lib al. induction fuel as [|fuel IH]; intros f c rem acc; cbn [unprotect_loop_q unprotect_loop].
  - apply same_bind; [apply same_quiet|]. intros o. destruct (rem <? o); [apply same_ret|]. intros e fs. reflexivity.
  - apply same_bind; [apply same_quiet|]. intros o. destruct (rem <? o); [apply same_ret|].
    apply same_bind; [apply same_quiet|]. intros [st|[hdr [vs on]]]; [apply same_ret|]. cbn zeta.
    apply same_bind; [apply same_quiet|]. intros [st|[payload c1]]; [apply same_ret|]. cbn [fp_alloc].
    apply same_bind; [apply unprotect_same|]. intros [[x [st w]] mem]. destruct st; try apply same_ret. apply IH.
Qed.
Lemma funprotect_same : forall P lib al f input, same (fp_unprotect_q P lib al f input) (fp_unprotect P lib al f input).
Proof.
  intros. unfold fp_unprotect_q, fp_unprotect. cbn zeta. apply same_bind; [apply same_quiet|]. intros o.
  destruct (_ <? o); [apply same_ret|apply uloop_same].
Qed.
Lemma protector_same : forall P lib al f q op fs next,
  match fstep_q P lib al f q op fs next with
  | Done (f', r, _) => fstep P lib al f op fs = Done (f', r)
  | Undef u => fstep P lib al f op fs = Undef u
  | NoFuel => fstep P lib al f op fs = NoFuel
  end.
Proof.
  intros P lib al f q op fs next. unfold fstep_q, fstep. set (e := Build_errs _ _ _ _). clearbody e. destruct op as [input|input id buf|input|input buf].
  - pose proof (fprotect_same P al f input e fs) as H. unfold obind.
    destruct (fp_protect_q P al f input e fs) as [[[[[g st] o] e'] fs']|u|]; rewrite H; reflexivity.
  - pose proof (into_same P f input id (IoBuf buf) e fs) as H. unfold obind.
    destruct (fp_protect_into_q P f input id (IoBuf buf) e fs) as [[[[[g st] o] e'] fs']|u|]; rewrite H; reflexivity.
  - pose proof (funprotect_same P lib al f input e fs) as H. unfold obind.
    destruct (fp_unprotect_q P lib al f input e fs) as [[[[[g st] o] e'] fs']|u|]; rewrite H; reflexivity.
  - pose proof (uinto_same P lib f input (IoBuf buf) e fs) as H. unfold obind.
    destruct (fp_unprotect_into_q P lib f input (IoBuf buf) e fs) as [[[[[[g st] o] n] e'] fs']|u|]; rewrite H; reflexivity.
Qed.
Lemma protector_create_same : forall P lib a q next fs,
  match fp_create_q P lib a {| e_queue := q; e_next := next; e_text := []; e_raised := [] |} fs with
  | Done ((r, _), fs') => fp_create P lib a fs = Done (r, fs')
  | Undef u => fp_create P lib a fs = Undef u
  | NoFuel => fp_create P lib a fs = NoFuel
  end.
Proof. intros. apply (fp_create_same P lib a). Qed.

Lemma fp_code_fails : forall st, st <> S_OK -> fp_code st <> kOk.
Proof. intros st H. destruct st; try discriminate. destruct (H eq_refl). Qed.

(* Protect: nothing happened, or the call failed and told. *)
Definition prel (e : errs) (f : fprot) (st : code) (e' : errs) (f' : fprot) : Prop :=
  receiving_broken f' = receiving_broken f /\ (e' = e \/ (st <> kOk /\ told e e')).
Definition urel (e : errs) (f : fprot) (st : code) (e' : errs) (f' : fprot) : Prop :=
  (receiving_broken f' = receiving_broken f /\ (e' = e \/ (st = kInternal /\ told e e'))) \/
  (receiving_broken f = false /\ receiving_broken f' = true /\ st = kInternal /\ dropped e e').

Lemma ploop_rel : forall P fuel f c rem first out index id e fs f' st out' e' fs',
  protect_loop_q fuel P f c rem first out index id e fs = Done (((f', st, out'), e'), fs') -> prel e f st e' f'.
Proof.
  intros P. induction fuel as [|fuel IH]; intros f c rem first out index id e fs f' st out' e' fs' W; cbn [protect_loop_q] in W.
  - destruct (negb _); [step W; split; [reflexivity|left; reflexivity]|discriminate W].
  - destruct (negb _); [step W; split; [reflexivity|left; reflexivity]|]. cbn zeta in W.
    destruct (qbind_done _ _ _ _ _ _ _ _ _ W) as [[chunk c1] [e1 [f1 [A W1]]]]. clear W.
    destruct (quiet_done _ _ _ _ _ _ _ A) as [_ ->]. clear A.
    destruct (qbind_done _ _ _ _ _ _ _ _ _ W1) as [[[x [cs w]] tail] [e2 [f2 [A W2]]]]. clear W1.
    apply protect_rel in A. destruct A as [A B].
    assert (K : receiving_broken (with_crypt f x) = receiving_broken f).
    { unfold receiving_broken, inbound_broken. cbn [fp_crypt with_crypt]. rewrite A. reflexivity. }
    destruct cs; try (step W2; split; [exact K|]; destruct B as [B|[_ B]]; [left; exact B|right; split; [discriminate|exact B]]).
    destruct B as [->|[B _]]; [|destruct (B eq_refl)].
    destruct (qbind_done _ _ _ _ _ _ _ _ _ W2) as [o [e3 [f3 [C W3]]]]. clear W2.
    destruct (quiet_done _ _ _ _ _ _ _ C) as [_ ->]. clear C.
    destruct (negb (w =? _)); [step W3; split; [exact K|left; reflexivity]|].
    apply IH in W3. destruct W3 as [W3 D]. split; [rewrite W3; exact K|exact D].
Qed.
Lemma into_rel : forall P f input id out e fs f' st out' e' fs',
  fp_protect_into_q P f input id out e fs = Done (((f', st, out'), e'), fs') -> prel e f st e' f'.
Proof.
  intros P f input id out e fs f' st out' e' fs' W. unfold fp_protect_into_q in W. cbn zeta in W. destruct out as [buf|n].
  - destruct (qbind_done _ _ _ _ _ _ _ _ _ W) as [[[g s] b] [e1 [f1 [A W1]]]]. apply ploop_rel in A. step W1. exact A.
  - destruct (qbind_done _ _ _ _ _ _ _ _ _ W) as [[chunk c1] [e1 [f1 [A W1]]]]. clear W.
    destruct (quiet_done _ _ _ _ _ _ _ A) as [_ ->]. clear A.
    destruct (qbind_done _ _ _ _ _ _ _ _ _ W1) as [[[x [cs w]] tail] [e2 [f2 [A W2]]]]. clear W1.
    apply protect_rel in A. destruct A as [A B]. step W2. split.
    + unfold receiving_broken, inbound_broken. cbn [fp_crypt with_crypt fp_destroy]. rewrite A. reflexivity.
    + destruct B as [B|[N B]]; [left; exact B|right; split; [exact (fp_code_fails _ N)|exact B]].
Qed.
Lemma fprotect_rel : forall P al f input e fs f' st bs e' fs',
  fp_protect_q P al f input e fs = Done (((f', st, bs), e'), fs') -> prel e f st e' f'.
Proof.
  intros P al f input e fs f' st bs e' fs' W. unfold fp_protect_q in W.
  destruct (qbind_done _ _ _ _ _ _ _ _ _ W) as [size [e1 [f1 [A W1]]]]. clear W.
  destruct (quiet_done _ _ _ _ _ _ _ A) as [_ ->]. clear A. cbn [fp_alloc] in W1.
  destruct (qbind_done _ _ _ _ _ _ _ _ _ W1) as [[[g s] o] [e2 [f2 [A W2]]]]. clear W1. apply into_rel in A.
  destruct (negb (is_ok s)) eqn:O.
  - step W2. exact A.
  - apply ok_code in O. subst s. step W2. exact A.
Qed.

Lemma unprotect_urel : forall P lib f x hd pl pt e fs cs n out e' fs', e_text e = [] ->
  crypt_unprotect_q P lib (fp_crypt f) hd pl pt e fs = Done (((x, (cs, n), out), e'), fs') ->
  urel e f (fp_code cs) e' (with_crypt f x) /\
  (cs = S_OK -> e' = e /\ receiving_broken (with_crypt f x) = receiving_broken f).
Proof.
  intros P lib f x hd pl pt e fs cs n out e' fs' T W. apply (unprotect_rel _ _ _ _ _ _ _ _ _ _ _ _ _ _ T) in W.
  destruct W as [[A B]|[A [B [-> [_ D]]]]].
  - split.
    + left. split; [exact A|]. destruct B as [B|[-> B]]; [left; exact B|right; split; [reflexivity|exact B]].
    + intros ->. destruct B as [B|[N _]]; [split; [exact B|exact A]|discriminate N].
  - split; [|discriminate]. right. split; [exact A|]. split; [exact B|]. split; [reflexivity|exact D].
Qed.
Lemma uinto_rel : forall P lib f input out e fs f' st out' n e' fs', e_text e = [] ->
  fp_unprotect_into_q P lib f input out e fs = Done (((f', st, out', n), e'), fs') -> urel e f st e' f'.
Proof.
  intros P lib f input out e fs f' st out' n e' fs' T W. unfold fp_unprotect_into_q in W.
  assert (Z : forall s, urel e f s e f) by (intros s; left; split; [reflexivity|left; reflexivity]).
  destruct (qbind_done _ _ _ _ _ _ _ _ _ W) as [m [e1 [f1 [A W1]]]]. clear W. destruct (quiet_done _ _ _ _ _ _ _ A) as [_ ->]. clear A.
  destruct (m =? 0); [step W1; apply Z|].
  destruct (qbind_done _ _ _ _ _ _ _ _ _ W1) as [r [e2 [f2 [A W2]]]]. clear W1. destruct (quiet_done _ _ _ _ _ _ _ A) as [_ ->]. clear A.
  destruct r as [s|[hdr [vs on]]]; [step W2; apply Z|].
  destruct (qbind_done _ _ _ _ _ _ _ _ _ W2) as [r [e3 [f3 [A W3]]]]. clear W2. destruct (quiet_done _ _ _ _ _ _ _ A) as [_ ->]. clear A.
  destruct r as [s|[payload c]]; [step W3; apply Z|].
  destruct (qbind_done _ _ _ _ _ _ _ _ _ W3) as [[[x [cs w]] o] [e4 [f4 [A W4]]]]. clear W3.
  apply (unprotect_urel _ _ _ _ _ _ _ _ _ _ _ _ _ _ T) in A. destruct A as [A _]. cbn zeta in W4. destruct cs; step W4; exact A.
Qed.
Lemma destroy_all : forall acc f, receiving_broken (fold_left (fun f b => fp_destroy f (fb_id b)) acc f) = receiving_broken f.
Proof. induction acc as [|b acc IH]; intros f; [reflexivity|]. cbn [fold_left]. rewrite IH. reflexivity. Qed.
Lemma uloop_rel : forall P lib al fuel f c rem acc e fs f' st bs e' fs', e_text e = [] ->
  unprotect_loop_q fuel P lib al f c rem acc e fs = Done (((f', st, bs), e'), fs') -> urel e f st e' f'.
Proof.
  intros P lib al. induction fuel as [|fuel IH]; intros f c rem acc e fs f' st bs e' fs' T W; cbn [unprotect_loop_q] in W;
    (assert (Z : forall s, urel e f s e f) by (intros s; left; split; [reflexivity|left; reflexivity]));
    destruct (qbind_done _ _ _ _ _ _ _ _ _ W) as [o [e1 [f1 [A W1]]]]; clear W; destruct (quiet_done _ _ _ _ _ _ _ A) as [_ ->]; clear A;
    (destruct (rem <? o); [step W1; apply Z|]); [discriminate W1|].
  destruct (qbind_done _ _ _ _ _ _ _ _ _ W1) as [r [e2 [f2 [A W2]]]]. clear W1. destruct (quiet_done _ _ _ _ _ _ _ A) as [_ ->]. clear A.
  destruct r as [s|[hdr [vs on]]]; [step W2; apply Z|]. cbn zeta in W2.
  destruct (qbind_done _ _ _ _ _ _ _ _ _ W2) as [r [e3 [f3 [A W3]]]]. clear W2. destruct (quiet_done _ _ _ _ _ _ _ A) as [_ ->]. clear A.
  destruct r as [s|[payload c1]]; [step W3; apply Z|]. unfold fp_alloc in W3.
  set (g := {| fp_crypt := fp_crypt f; fp_max := fp_max f; fp_next := fp_next f + 1;
               fp_events := fp_events f ++ [EvAlloc (fp_next f) (header_payload_size hdr)] |}) in W3.
  destruct (qbind_done _ _ _ _ _ _ _ _ _ W3) as [[[x [cs w]] mem] [e4 [f4 [A W4]]]]. clear W3.
  apply (unprotect_urel _ _ g _ _ _ _ _ _ _ _ _ _ _ T) in A. destruct A as [A B].
  assert (G : receiving_broken g = receiving_broken f) by reflexivity. clearbody g.
  destruct cs.
  1: { destruct (B eq_refl) as [-> K]. apply (IH _ _ _ _ _ _ _ _ _ _ _ T) in W4.
       assert (K2 : receiving_broken (with_crypt g x) = receiving_broken f) by (rewrite K; exact G).
       unfold urel in *. rewrite K2 in W4. exact W4. }
  all: step W4; unfold urel in *; rewrite destroy_all; rewrite G in A; exact A.
Qed.
Lemma funprotect_rel : forall P lib al f input e fs f' st bs e' fs', e_text e = [] ->
  fp_unprotect_q P lib al f input e fs = Done (((f', st, bs), e'), fs') -> urel e f st e' f'.
Proof.
  intros P lib al f input e fs f' st bs e' fs' T W. unfold fp_unprotect_q in W. cbn zeta in W.
  destruct (qbind_done _ _ _ _ _ _ _ _ _ W) as [o [e1 [f1 [A W1]]]]. clear W. destruct (quiet_done _ _ _ _ _ _ _ A) as [_ ->]. clear A.
  destruct (_ <? o); [step W1; left; split; [reflexivity|left; reflexivity]|]. exact (uloop_rel _ _ _ _ _ _ _ _ _ _ _ _ _ _ _ T W1).
Qed.

Lemma prel_says : forall q next f st e' f', prel (start q next) f st e' f' ->
  receiving_broken f' = receiving_broken f /\ (nothing_happened q e' \/ (st <> kOk /\ returned q e')).
Proof.
  intros q next f st e' f' [A B]. split; [exact A|]. destruct B as [->|[N B]]; [left; apply start_nothing|].
  right. split; [exact N|exact (told_returned _ _ _ B)].
Qed.
Lemma urel_says : forall q next f st e' f', receiving_broken f' = receiving_broken f /\ (e' = start q next \/ (st = kInternal /\ told (start q next) e')) ->
  receiving_broken f' = receiving_broken f /\ (nothing_happened q e' \/ (st <> kOk /\ returned q e')).
Proof.
  intros q next f st e' f' [A B]. apply (prel_says q next f st e' f'). split; [exact A|].
  destruct B as [B|[-> B]]; [left; exact B|right; split; [discriminate|exact B]].
Qed.
Lemma dropped_says : forall q next e', dropped (start q next) e' -> vanished e' \/ in_queue q e'.
Proof.
  intros q next e' [T [new [D [E|E]]]]; [left; split; assumption|]. right. cbn in D, E. split; [exact T|]. rewrite D. exact E.
Qed.

Lemma each_protector_call : forall P lib al f q op fs next f' r e, fstep_q P lib al f q op fs next = Done (f', r, e) ->
  (key_update_failed op f f' r /\ (vanished e \/ in_queue q e)) \/
  (receiving_broken f' = receiving_broken f /\ (nothing_happened q e \/ (status_of r <> kOk /\ returned q e))).
Proof.
  intros P lib al f q op fs next f' r e H. destruct op as [input|input id buf|input|input buf]; cbn [fstep_q] in H;
    change {| e_queue := q; e_next := next; e_text := []; e_raised := [] |} with (start q next) in H.
  - destruct (obind_done _ _ _ _ _ H) as [[[[[g st] o] e1] f1] [A B]]. apply fprotect_rel in A. injection B as <- <- <-.
    right. exact (prel_says _ _ _ _ _ _ A).
  - destruct (obind_done _ _ _ _ _ H) as [[[[[g st] o] e1] f1] [A B]]. apply into_rel in A. injection B as <- <- <-.
    right. exact (prel_says _ _ _ _ _ _ A).
  - destruct (obind_done _ _ _ _ _ H) as [[[[[g st] o] e1] f1] [A B]]. apply funprotect_rel in A; [|reflexivity]. injection B as <- <- <-.
    destruct A as [A|[A [B [C D]]]]; [right; exact (urel_says _ _ _ _ _ _ A)|].
    left. split; [split; [exact A|]; split; [exact B|]; split; [exact C|exact I]|exact (dropped_says _ _ _ D)].
  - destruct (obind_done _ _ _ _ _ H) as [[[[[[g st] o] n] e1] f1] [A B]]. apply uinto_rel in A; [|reflexivity]. injection B as <- <- <-.
    destruct A as [A|[A [B [C D]]]]; [right; exact (urel_says _ _ _ _ _ _ A)|].
    left. split; [split; [exact A|]; split; [exact B|]; split; [exact C|exact I]|exact (dropped_says _ _ _ D)].
Qed.

Lemma half_create_usable : forall P lib s q secret e fs h e' fs', half_create_q P lib s q secret e fs = Done ((inr h, e'), fs') ->
  hc_always_fail h = false.
Proof.
  intros P lib s q secret e fs h e' fs' W. unfold half_create_q in W.
  destruct (negb (lenN secret =? suite_secret_size s)).
  { destruct (qret_done _ _ _ _ _ _ _ W) as [Q _]. discriminate Q. }
  destruct (qbind_done _ _ _ _ _ _ _ _ _ W) as [[st1 key] [e1 [f1 [_ W1]]]]. clear W.
  destruct (negb (is_ok st1)). { destruct (qret_done _ _ _ _ _ _ _ W1) as [Q _]. discriminate Q. }
  destruct (qbind_done _ _ _ _ _ _ _ _ _ W1) as [[st2 nonce] [e2 [f2 [_ W2]]]]. clear W1.
  destruct (negb (is_ok st2)). { destruct (qret_done _ _ _ _ _ _ _ W2) as [Q _]. discriminate Q. }
  destruct (qbind_done _ _ _ _ _ _ _ _ _ W2) as [r3 [e3 [f3 [_ W3]]]]. clear W2.
  destruct r3 as [st3|c]; destruct (qret_done _ _ _ _ _ _ _ W3) as [Q _]; [discriminate Q|]. injection Q as ->. reflexivity.
Qed.
Lemma crypt_create_rel : forall P lib a e fs r e' fs', crypt_create_q P lib a e fs = Done ((r, e'), fs') ->
  match r with inl st => call_rel e st e' | inr x => e' = e /\ inbound_broken x = false end.
Proof.
  intros P lib a e fs r e' fs' W. unfold crypt_create_q in W.
  destruct (_ =? 0); [step W; left; reflexivity|]. destruct (negb _); [step W; left; reflexivity|].
  destruct (negb _); [step W; left; reflexivity|]. destruct (ca_tls a); try (step W; left; reflexivity).
  destruct (qbind_done _ _ _ _ _ _ _ _ _ W) as [r1 [e1 [f1 [A W1]]]]. clear W. pose proof A as A0. apply create_rel in A.
  destruct r1 as [st1|h1]; [step W1; exact A|]. subst e1.
  destruct (qbind_done _ _ _ _ _ _ _ _ _ W1) as [r2 [e2 [f2 [B W2]]]]. clear W1. apply create_rel in B.
  destruct r2 as [st2|h2]; [step W2; exact B|]. subst e2. step W2. split; [reflexivity|].
  unfold inbound_broken. cbn [cx_in]. exact (half_create_usable _ _ _ _ _ _ _ _ _ _ A0).
Qed.
Lemma protector_create : forall P lib a q next fs r e fs',
  fp_create_q P lib a {| e_queue := q; e_next := next; e_text := []; e_raised := [] |} fs = Done ((r, e), fs') ->
  match r with
  | inl st => nothing_happened q e \/ (st <> kOk /\ (returned q e \/ in_queue q e))
  | inr f => nothing_happened q e /\ receiving_broken f = false
  end.
Proof.
  intros P lib a q next fs r e fs' W. change {| e_queue := q; e_next := next; e_text := []; e_raised := [] |} with (start q next) in W.
  unfold fp_create_q in W. cbn zeta in W. destruct (_ || _); [step W; left; apply start_nothing|].
  destruct (qbind_done _ _ _ _ _ _ _ _ _ W) as [r1 [e1 [f1 [A W1]]]]. clear W. apply crypt_create_rel in A.
  destruct r1 as [st|x].
  - step W1. destruct A as [->|[N [A|A]]]; [left; apply start_nothing|right; split; [exact N|left; exact (told_returned _ _ _ A)]|].
    right. split; [exact N|right; exact (kept_in_queue _ _ _ A)].
  - destruct A as [-> B].
    destruct (qbind_done _ _ _ _ _ _ _ _ _ W1) as [o [e2 [f2 [C W2]]]]. clear W1. destruct (quiet_done _ _ _ _ _ _ _ C) as [_ ->]. clear C.
    step W2. split; [apply start_nothing|exact B].
Qed.

Lemma frun_cons : forall P lib al f q op fs next ops f' rs, frun_q P lib al f q ((op, fs, next) :: ops) = Done (f', rs) ->
  exists f1 r e rs', rs = (r, e) :: rs' /\ fstep_q P lib al f q op fs next = Done (f1, r, e) /\ frun_q P lib al f1 (e_queue e) ops = Done (f', rs').
Proof.
  intros P lib al f q op fs next ops f' rs H. cbn [frun_q] in H. destruct (obind_done _ _ _ _ _ H) as [[[f1 r] e] [A B]].
  destruct (obind_done _ _ _ _ _ B) as [[f2 rs'] [C D]]. injection D as <- <-. exists f1, r, e, rs'. repeat split; assumption.
Qed.
Lemma receiving_stays : forall P lib al ops f q f' rs, frun_q P lib al f q ops = Done (f', rs) ->
  receiving_broken f = true -> receiving_broken f' = true.
Proof.
  intros P lib al. induction ops as [|[[op fs] next] ops IH]; intros f q f' rs H B.
  - injection H as <- _. exact B.
  - destruct (frun_cons _ _ _ _ _ _ _ _ _ _ _ H) as [f1 [r [e [rs' [-> [A C]]]]]]. apply (IH _ _ _ _ C).
    destruct (each_protector_call _ _ _ _ _ _ _ _ _ _ _ A) as [[[D _] _]|[D _]]; [rewrite B in D; discriminate|rewrite D; exact B].
Qed.

Lemma protector_nothing_lost : forall P lib al ops f q f' rs, frun_q P lib al f q ops = Done (f', rs) -> receiving_broken f' = false ->
  texts rs ++ queue_after q rs = q ++ all_raised rs.
Proof.
  intros P lib al. induction ops as [|[[op fs] next] ops IH]; intros f q f' rs H B.
  - injection H as _ <-. cbn. symmetry. apply app_nil_r.
  - destruct (frun_cons _ _ _ _ _ _ _ _ _ _ _ H) as [f1 [r [e [rs' [-> [A C]]]]]]. pose proof (IH _ _ _ _ C B) as D.
    unfold texts, all_raised, queue_after in *. cbn [map flat_map snd]. rewrite last_cons, <- app_assoc, D.
    destruct (each_protector_call _ _ _ _ _ _ _ _ _ _ _ A) as [[[_ [E _]] _]|[_ E]].
    + rewrite (receiving_stays _ _ _ _ _ _ _ _ C E) in B. discriminate.
    + destruct E as [[X [Y Z]]|[_ [Y Z]]]; rewrite Y, Z; try rewrite X; rewrite ?app_nil_l, <- ?app_assoc; reflexivity.
Qed.

Lemma protector_own : forall P lib al ops f f' rs, frun_q P lib al f [] ops = Done (f', rs) -> receiving_broken f' = false ->
  Forall reports_its_own rs.
Proof.
  intros P lib al. induction ops as [|[[op fs] next] ops IH]; intros f f' rs H B.
  - injection H as _ <-. constructor.
  - destruct (frun_cons _ _ _ _ _ _ _ _ _ _ _ H) as [f1 [r [e [rs' [-> [A C]]]]]].
    assert (K : reports_its_own (r, e)).
    { destruct (each_protector_call _ _ _ _ _ _ _ _ _ _ _ A) as [[[_ [E _]] _]|[_ E]].
      - rewrite (receiving_stays _ _ _ _ _ _ _ _ C E) in B. discriminate.
      - unfold reports_its_own. cbn [fst snd]. destruct E as [[X [Y Z]]|[N [Y Z]]].
        + rewrite X, Y, Z. repeat split.
        + rewrite Y, Z. split; [reflexivity|]. split; [reflexivity|]. intros Q. destruct (N Q). }
    constructor; [exact K|]. destruct K as [_ [K _]]. cbn [snd] in K. rewrite K in C. exact (IH _ _ _ C B).
Qed.

Lemma urel_other : forall q next f st e' f', urel (start q next) f st e' f' -> st <> kInternal -> nothing_happened q e'.
Proof.
  intros q next f st e' f' [[_ [->|[B _]]]|[_ [_ [B _]]]] N; [apply start_nothing|destruct (N B)..].
Qed.
Lemma unprotect_other_failure : forall P lib al f q op fs next f' r e, fstep_q P lib al f q op fs next = Done (f', r, e) ->
  match op with FUnprotect _ | FUnprotectInto _ _ => True | _ => False end -> status_of r <> kInternal -> nothing_happened q e.
Proof.
  intros P lib al f q op fs next f' r e H O N. destruct op as [input|input id buf|input|input buf]; [destruct O..| |]; cbn [fstep_q] in H;
    change {| e_queue := q; e_next := next; e_text := []; e_raised := [] |} with (start q next) in H.
  - destruct (obind_done _ _ _ _ _ H) as [[[[[g st] o] e1] f1] [A B]]. apply funprotect_rel in A; [|reflexivity]. injection B as <- <- <-.
    exact (urel_other _ _ _ _ _ _ A N).
  - destruct (obind_done _ _ _ _ _ H) as [[[[[[g st] o] n] e1] f1] [A B]]. apply uinto_rel in A; [|reflexivity]. injection B as <- <- <-.
    exact (urel_other _ _ _ _ _ _ A N).
Qed.
