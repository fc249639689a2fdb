(* Threads and one mutex: every concurrent execution is explained by a
   sequential one. *)
From Coq Require Import List NArith Bool Lia PeanoNat.
From Verif Require Import Base Conc ConcAlone ConcRun.
Import ListNotations.

Lemma nth_set_same : forall A n (a : A) l b, nth_error l n = Some b -> nth_error (set_nth n a l) n = Some a.
Proof. induction n as [|n IH]; intros a [|c l] b H; cbn in *; try discriminate; [reflexivity|]. eapply IH; eassumption. Qed.
Lemma nth_set_other : forall A n m (a : A) l, n <> m -> nth_error (set_nth n a l) m = nth_error l m.
Proof.
  induction n as [|n IH]; intros m a [|c l] H; cbn; try reflexivity.
  - destruct m; [congruence|reflexivity].
  - destruct m; [reflexivity|]. cbn. apply IH. congruence.
Qed.
Lemma length_set_nth : forall A n (a : A) l, length (set_nth n a l) = length l.
Proof. induction n as [|n IH]; intros a [|c l]; cbn; auto. Qed.

Lemma of_thread_app : forall O R i (a b : list (entry O R)), of_thread i (a ++ b) = of_thread i a ++ of_thread i b.
Proof. intros. apply filter_app. Qed.

Lemma seq_run_snoc : forall S O R (step : S -> O -> outcome (S * R)) os s s1 rs o s2 r,
  seq_run step s os = Done (s1, rs) -> step s1 o = Done (s2, r) ->
  seq_run step s (os ++ [o]) = Done (s2, rs ++ [r]).
Proof.
  induction os as [|o' os IH]; intros s s1 rs o s2 r H1 H2; cbn in *.
  - injection H1 as <- <-. rewrite H2. reflexivity.
  - destruct (step s o') as [[s' r']|u|]; cbn in *; try discriminate.
    destruct (seq_run step s' os) as [[s'' rs']|u|] eqn:E; cbn in *; try discriminate.
    injection H1 as <- <-. rewrite (IH _ _ _ _ _ _ E H2). reflexivity.
Qed.

Section Mutex.
Context {S O Q R : Type}.
Variable pre : O -> prog S Q.
Variable body : Q -> prog S R.
Variable step : S -> O -> outcome (S * R).
(* Of the object at all times, and while no thread is inside a method. *)
Variable Inv : S -> Prop.
Variable Good : S -> Prop.
Variable okO : O -> Prop.

(* Steps of [p] do not change the object, and [p] ends with [q] whatever the
   others do. *)
Fixpoint quiet (p : prog S Q) (q : Q) : Prop :=
  match p with
  | Ret q' => q' = q
  | Step f k => forall s, Inv s -> exists b, f s = Done (s, b) /\ quiet (k b) q
  end.

(* [p] leads from [s] to [s'] with result [r], through states with Inv. *)
Fixpoint leads (p : prog S R) (s : S) (s' : S) (r : R) : Prop :=
  Inv s /\
  match p with
  | Ret r' => s' = s /\ r = r'
  | Step f k => exists s1 b, f s = Done (s1, b) /\ leads (k b) s1 s' r
  end.

Definition ready (o : O) (q : Q) : Prop :=
  forall s, Good s -> exists s' r, step s o = Done (s', r) /\ Good s' /\ leads (body q) s s' r.

Hypothesis Hpre : forall o, okO o -> exists q, quiet (pre o) q /\ ready o q.

Definition active (owner : option nat) (mem s1 : S) (i : nat) (a : activity S O Q R) : Prop :=
  match a with
  | Idle => owner <> Some i
  | Before o p => owner <> Some i /\ exists q, quiet p q /\ ready o q
  | Waiting o q => owner <> Some i /\ ready o q
  | Inside o p => owner = Some i /\ exists s' r, step s1 o = Done (s', r) /\ Good s' /\ leads p mem s' r
  end.

Definition inv (s0 : S) (calls : list (list O)) (c : config S O Q R) (l : list (entry O R)) : Prop :=
  exists s1, seq_run step s0 (map e_op l) = Done (s1, map e_res l) /\ Good s1 /\ Inv (cf_mem c) /\
  (cf_owner c = None -> cf_mem c = s1) /\
  (forall i, cf_owner c = Some i -> (i < length calls)%nat) /\
  length (cf_threads c) = length calls /\
  (forall e, In e l -> (e_thread e < length calls)%nat) /\
  forall i t, nth_error (cf_threads c) i = Some t ->
    th_done t = map e_res (of_thread i l) /\
    nth_error calls i = Some (map e_op (of_thread i l) ++ unfinished t) /\
    Forall okO (th_todo t) /\
    active (cf_owner c) (cf_mem c) s1 i (th_doing t).

Lemma inv_explains : forall s0 calls c l, inv s0 calls c l -> explains (seq_run step) s0 calls c l.
Proof.
  intros s0 calls c l (s1 & H1 & _ & _ & H2 & _ & H3 & H4 & H5). split; [exists s1; auto|].
  split; [exact H3|]. split; [exact H4|]. intros i t Ht. destruct (H5 i t Ht) as (A & B & _). auto.
Qed.

(* Thread i replaces its state by t'; nothing is completed. *)
Lemma inv_put : forall s0 calls c l s1 i t t' mem' owner',
  seq_run step s0 (map e_op l) = Done (s1, map e_res l) -> Good s1 -> Inv mem' ->
  (owner' = None -> mem' = s1) ->
  (forall j, owner' = Some j -> (j < length calls)%nat) ->
  length (cf_threads c) = length calls ->
  (forall e, In e l -> (e_thread e < length calls)%nat) ->
  (forall i t, nth_error (cf_threads c) i = Some t ->
    th_done t = map e_res (of_thread i l) /\
    nth_error calls i = Some (map e_op (of_thread i l) ++ unfinished t) /\
    Forall okO (th_todo t) /\
    active (cf_owner c) (cf_mem c) s1 i (th_doing t)) ->
  nth_error (cf_threads c) i = Some t ->
  th_done t' = th_done t -> unfinished t' = unfinished t -> Forall okO (th_todo t') ->
  active owner' mem' s1 i (th_doing t') ->
  (forall j a, j <> i -> active (cf_owner c) (cf_mem c) s1 j a -> active owner' mem' s1 j a) ->
  inv s0 calls (Build_config mem' owner' (set_nth i t' (cf_threads c))) l.
Proof.
  intros s0 calls c l s1 i t t' mem' owner' H1 HG HI Hm Ho Hl He Ht Hi Hd Hu Hk Ha Hj.
  exists s1. cbn [cf_mem cf_owner cf_threads]. do 5 (split; [assumption|]).
  split; [rewrite length_set_nth; exact Hl|]. split; [exact He|].
  intros j u Hju. destruct (Nat.eq_dec i j) as [->|Hne].
  - rewrite (nth_set_same _ _ _ _ _ Hi) in Hju. injection Hju as <-.
    destruct (Ht _ _ Hi) as (A1 & A2 & A3 & A4). rewrite Hd, Hu. auto.
  - rewrite nth_set_other in Hju by exact Hne. destruct (Ht _ _ Hju) as (A1 & A2 & A3 & A4).
    repeat split; auto.
Qed.

Lemma inv_step : forall s0 calls c l i, inv s0 calls c l ->
  exists c' l', tstep pre body c i = Done c' /\ inv s0 calls c' (l ++ l').
Proof.
  intros s0 calls c l i Hinv. pose proof Hinv as (s1 & H1 & HG & HI & Hm & Ho & Hl & He & Ht). unfold tstep.
  destruct (nth_error (cf_threads c) i) as [t|] eqn:Hi; [|exists c, []; rewrite app_nil_r; auto].
  destruct (Ht _ _ Hi) as (A1 & A2 & A3 & A4).
  destruct (th_doing t) as [|o p|o q|o p] eqn:Ed; cbn [active] in A4.
  - (* Idle *)
    destruct (th_todo t) as [|o r] eqn:Et; [exists c, []; rewrite app_nil_r; auto|].
    do 2 eexists. split; [reflexivity|]. rewrite app_nil_r.
    eapply inv_put; try eassumption; cbn [th_doing th_done th_todo]; try reflexivity.
    + unfold unfinished. cbn. rewrite Ed, Et. reflexivity.
    + inversion A3; assumption.
    + cbn [active]. split; [exact A4|]. apply Hpre. inversion A3; assumption.
    + auto.
  - destruct A4 as (A4 & q & A5 & A6). destruct p as [q'|B f k]; cbn [quiet] in A5.
    + subst q'. do 2 eexists. split; [reflexivity|]. rewrite app_nil_r.
      eapply inv_put; try eassumption; cbn [th_doing th_done th_todo]; try reflexivity; auto.
      * unfold unfinished. cbn. rewrite Ed. reflexivity.
      * cbn [active]. auto.
    + destruct (A5 _ HI) as (b & Eb & Hb). rewrite Eb. cbn [obind].
      do 2 eexists. split; [reflexivity|]. rewrite app_nil_r.
      eapply inv_put; try eassumption; cbn [th_doing th_done th_todo]; try reflexivity; auto.
      * unfold unfinished. cbn. rewrite Ed. reflexivity.
      * cbn [active]. split; [exact A4|]. exists q. auto.
  - destruct A4 as (A4 & A5). destruct (cf_owner c) as [j|] eqn:Eo.
    { exists c, []. rewrite app_nil_r. auto. }
    do 2 eexists. split; [reflexivity|]. rewrite app_nil_r.
    rewrite (Hm eq_refl). destruct (A5 _ HG) as (s' & r & B1 & B2 & B3).
    eapply inv_put; try eassumption; cbn [th_doing th_done th_todo]; try reflexivity; auto.
    + rewrite <- (Hm eq_refl). exact HI.
    + intros j Hj. injection Hj as <-. rewrite <- Hl. apply nth_error_Some. rewrite Hi. discriminate.
    + rewrite Eo. exact Ht.
    + unfold unfinished. cbn. rewrite Ed. reflexivity.
    + cbn [active]. split; [reflexivity|]. exists s', r. auto.
    + intros j a Hj. rewrite Eo. destruct a as [|o2 p2|o2 q2|o2 p2]; cbn [active].
      * congruence.
      * intros [_ E]. split; [congruence|exact E].
      * intros [_ E]. split; [congruence|exact E].
      * intros [E _]. congruence.
  - destruct A4 as (A4 & s' & r & B1 & B2 & B3). destruct p as [r'|B f k]; cbn [leads] in B3; destruct B3 as (B3 & B4).
    + destruct B4 as (-> & ->).
      exists (Build_config (cf_mem c) None (set_nth i (Build_thread (th_todo t) Idle (th_done t ++ [r'])) (cf_threads c))),
        [Build_entry i o r']. split; [reflexivity|].
      assert (Hlt : (i < length calls)%nat) by (rewrite <- Hl; apply nth_error_Some; rewrite Hi; discriminate).
      exists (cf_mem c). cbn [cf_mem cf_owner cf_threads]. rewrite !map_app. cbn [map e_op e_res].
      split; [eapply seq_run_snoc; eassumption|]. split; [exact B2|]. split; [exact B3|].
      split; [auto|]. split; [discriminate|]. split; [rewrite length_set_nth; exact Hl|].
      split. { intros e Hin. apply in_app_or in Hin. destruct Hin as [Hin|[<-|[]]]; auto. }
      intros j u Hju. destruct (Nat.eq_dec i j) as [<-|Hne].
      * rewrite (nth_set_same _ _ _ _ _ Hi) in Hju. injection Hju as <-. cbn [th_done th_doing th_todo].
        rewrite of_thread_app, !map_app. unfold of_thread at 2 4. cbn [filter e_thread].
        rewrite Nat.eqb_refl. cbn [map e_res e_op]. rewrite A1. split; [reflexivity|]. split.
        -- rewrite A2. unfold unfinished. rewrite Ed. cbn. rewrite <- app_assoc. reflexivity.
        -- split; [exact A3|]. cbn. congruence.
      * rewrite nth_set_other in Hju by exact Hne. destruct (Ht _ _ Hju) as (C1 & C2 & C3 & C4).
        rewrite of_thread_app. unfold of_thread at 2 4. cbn [filter e_thread].
        assert (E : Nat.eqb i j = false) by (apply Nat.eqb_neq; exact Hne). rewrite E, app_nil_r.
        repeat split; auto. destruct (th_doing u) as [|o2 p2|o2 q2|o2 p2]; cbn [active] in *.
        -- discriminate.
        -- destruct C4 as [_ C4]. split; [discriminate|exact C4].
        -- destruct C4 as [_ C4]. split; [discriminate|exact C4].
        -- destruct C4 as [C4 _]. congruence.
    + destruct B4 as (s2 & b & Eb & B4). rewrite Eb. cbn [obind].
      do 2 eexists. split; [reflexivity|]. rewrite app_nil_r.
      eapply inv_put; try eassumption; cbn [th_doing th_done th_todo]; try reflexivity; auto.
      * destruct (k b); cbn [leads] in B4; apply B4.
      * rewrite A4. discriminate.
      * unfold unfinished. cbn. rewrite Ed. reflexivity.
      * cbn [active]. split; [exact A4|]. exists s', r. auto.
      * intros j a Hj. destruct a as [|o2 p2|o2 q2|o2 p2]; cbn [active]; auto. intros [E _]. congruence.
Qed.

Lemma inv_run : forall sched s0 calls c l, inv s0 calls c l ->
  exists c' l', trun pre body c sched = Done c' /\ inv s0 calls c' (l ++ l').
Proof.
  induction sched as [|i sched IH]; intros s0 calls c l H; cbn [trun].
  - exists c, []. rewrite app_nil_r. auto.
  - destruct (inv_step _ _ _ _ i H) as (c1 & l1 & E1 & H1). rewrite E1. cbn [obind].
    destruct (IH _ _ _ _ H1) as (c2 & l2 & E2 & H2). exists c2, (l1 ++ l2). rewrite app_assoc. auto.
Qed.

Lemma inv_start : forall s0 calls, Good s0 -> Inv s0 -> Forall (Forall okO) calls ->
  inv s0 calls (tstart s0 calls) [].
Proof.
  intros s0 calls HG HI Hc. exists s0. cbn. split; [reflexivity|]. split; [exact HG|]. split; [exact HI|].
  split; [auto|]. split; [discriminate|]. split; [apply map_length|]. split; [intros e []|].
  intros i t Ht. rewrite nth_error_map in Ht. destruct (nth_error calls i) as [os|] eqn:E; cbn in Ht; [|discriminate].
  injection Ht as <-. cbn. split; [reflexivity|]. split; [reflexivity|]. split; [|discriminate].
  eapply (proj1 (Forall_forall _ _) Hc). eapply nth_error_In; eassumption.
Qed.

(* ---- no deadlock: everything can be completed ---- *)
Lemma trun_app : forall a c b, trun pre body c (a ++ b) = obind (trun pre body c a) (fun c => trun pre body c b).
Proof.
  induction a as [|i a IH]; intros c b; cbn [app trun]; [reflexivity|].
  destruct (tstep pre body c i) as [c1|u|]; cbn [obind]; auto.
Qed.

(* How many calls have not returned. *)
Definition left_over (c : config S O Q R) : nat := length (concat (map unfinished (cf_threads c))).

Definition owned (c : config S O Q R) : Prop := cf_owner c <> None.

(* The thread inside leaves. *)
Lemma leave : forall s0 calls p c l i t o, inv s0 calls c l -> nth_error (cf_threads c) i = Some t ->
  th_doing t = Inside o p ->
  exists sched c' l' t', trun pre body c sched = Done c' /\ inv s0 calls c' (l ++ l') /\ cf_owner c' = None /\
    cf_threads c' = set_nth i t' (cf_threads c) /\ unfinished t = o :: unfinished t'.
Proof.
  induction p as [r'|B f k IH]; intros c l i t o Hinv Hi Ed.
  - destruct (inv_step _ _ _ _ i Hinv) as (c' & l' & E & H'). exists [i], c', l'. cbn [trun]. rewrite E. cbn [obind].
    unfold tstep in E. rewrite Hi, Ed in E. injection E as <-.
    eexists. split; [reflexivity|]. split; [exact H'|]. split; [reflexivity|]. split; [reflexivity|].
    unfold unfinished. rewrite Ed. reflexivity.
  - destruct (inv_step _ _ _ _ i Hinv) as (c1 & l1 & E & H').
    pose proof E as E0. unfold tstep in E0. rewrite Hi, Ed in E0.
    destruct (f (cf_mem c)) as [[s b]|u|]; cbn [obind] in E0; try discriminate. injection E0 as <-.
    edestruct (IH b) as (sched & c2 & l2 & t2 & F1 & F2 & F3 & F4 & F5); [exact H'|eapply nth_set_same; eassumption|reflexivity|].
    exists (i :: sched), c2, (l1 ++ l2), t2. cbn [trun]. rewrite E. cbn [obind]. split; [exact F1|].
    split; [rewrite app_assoc; exact F2|]. split; [exact F3|]. split.
    { rewrite F4. cbn [cf_threads]. clear. generalize (cf_threads c). induction i as [|i IHi]; intros [|x y]; cbn; try reflexivity. f_equal. apply IHi. }
    rewrite <- F5. unfold unfinished. rewrite Ed. reflexivity.
Qed.

Lemma set_nth_twice : forall A n (a b : A) l, set_nth n a (set_nth n b l) = set_nth n a l.
Proof. induction n as [|n IH]; intros a b [|c l]; cbn; auto. f_equal. apply IH. Qed.

(* A thread with nothing but unlocked steps before it arrives at the mutex. *)
Lemma arrive : forall s0 calls p c l i t o, inv s0 calls c l -> nth_error (cf_threads c) i = Some t ->
  th_doing t = Before o p ->
  exists sched c' l' t' q, trun pre body c sched = Done c' /\ inv s0 calls c' (l ++ l') /\ cf_owner c' = cf_owner c /\
    cf_threads c' = set_nth i t' (cf_threads c) /\ unfinished t = unfinished t' /\ th_doing t' = Waiting o q.
Proof.
  induction p as [q|B f k IH]; intros c l i t o Hinv Hi Ed.
  - destruct (inv_step _ _ _ _ i Hinv) as (c' & l' & E & H'). exists [i], c', l'. cbn [trun]. rewrite E. cbn [obind].
    unfold tstep in E. rewrite Hi, Ed in E. injection E as <-.
    do 2 eexists. split; [reflexivity|]. split; [exact H'|]. split; [reflexivity|]. split; [reflexivity|].
    split; [|reflexivity]. unfold unfinished. rewrite Ed. reflexivity.
  - destruct (inv_step _ _ _ _ i Hinv) as (c1 & l1 & E & H').
    pose proof E as E0. unfold tstep in E0. rewrite Hi, Ed in E0.
    destruct (f (cf_mem c)) as [[s b]|u|]; cbn [obind] in E0; try discriminate. injection E0 as <-.
    edestruct (IH b) as (sched & c2 & l2 & t2 & q & F1 & F2 & F3 & F4 & F5 & F6); [exact H'|eapply nth_set_same; eassumption|reflexivity|].
    exists (i :: sched), c2, (l1 ++ l2), t2, q. cbn [trun]. rewrite E. cbn [obind]. split; [exact F1|].
    split; [rewrite app_assoc; exact F2|]. split; [exact F3|]. split.
    { rewrite F4. cbn [cf_threads]. apply set_nth_twice. }
    split; [|exact F6]. rewrite <- F5. unfold unfinished. rewrite Ed. reflexivity.
Qed.

Lemma left_over_set : forall ts i (t t' : thread S O Q R), nth_error ts i = Some t ->
  (length (concat (map unfinished (set_nth i t' ts))) + length (unfinished t) =
   length (concat (map unfinished ts)) + length (unfinished t'))%nat.
Proof.
  induction ts as [|u ts IH]; intros [|i] t t' H; cbn in H; try discriminate.
  - injection H as ->. cbn. rewrite !app_length. lia.
  - cbn. rewrite !app_length. specialize (IH i t t' H). lia.
Qed.

(* From a moment without owner: one more call returns, or all have. *)
Lemma waiting_done : forall s0 calls c l i t o q, inv s0 calls c l -> cf_owner c = None ->
  nth_error (cf_threads c) i = Some t -> th_doing t = Waiting o q ->
  exists sched c' l', trun pre body c sched = Done c' /\ inv s0 calls c' (l ++ l') /\ cf_owner c' = None /\
    (left_over c' < left_over c)%nat.
Proof.
  intros s0 calls c l i t o q Hinv Eo Hi Ed.
  destruct (inv_step _ _ _ _ i Hinv) as (c1 & l1 & E & H1).
  pose proof E as E0. unfold tstep in E0. rewrite Hi, Ed, Eo in E0. injection E0 as <-.
  edestruct leave as (sched & c2 & l2 & t2 & F1 & F2 & F3 & F4 & F5);
    [exact H1|eapply nth_set_same; eassumption|reflexivity|].
  exists (i :: sched), c2, (l1 ++ l2). cbn [trun]. rewrite E. cbn [obind]. split; [exact F1|].
  split; [rewrite app_assoc; exact F2|]. split; [exact F3|].
  unfold left_over. rewrite F4. cbn [cf_threads]. rewrite set_nth_twice.
  pose proof (left_over_set _ _ _ t2 Hi) as L.
  assert (unfinished t = o :: unfinished t2) as Eu.
  { rewrite <- F5. unfold unfinished. rewrite Ed. reflexivity. }
  rewrite Eu in L. cbn [length] in L. lia.
Qed.

Lemma before_done : forall s0 calls c l i t o p, inv s0 calls c l -> cf_owner c = None ->
  nth_error (cf_threads c) i = Some t -> th_doing t = Before o p ->
  exists sched c' l', trun pre body c sched = Done c' /\ inv s0 calls c' (l ++ l') /\ cf_owner c' = None /\
    (left_over c' < left_over c)%nat.
Proof.
  intros s0 calls c l i t o p Hinv Eo Hi Ed.
  destruct (arrive _ _ p _ _ _ _ _ Hinv Hi Ed) as (sched & c1 & l1 & t1 & q & F1 & F2 & F3 & F4 & F5 & F6).
  destruct (waiting_done _ _ c1 _ i t1 o q F2) as (sched2 & c2 & l2 & G1 & G2 & G3 & G4).
  { congruence. }
  { rewrite F4. eapply nth_set_same; eassumption. }
  { exact F6. }
  exists (sched ++ sched2), c2, (l1 ++ l2). rewrite trun_app, F1. cbn [obind]. split; [exact G1|].
  split; [rewrite app_assoc; exact G2|]. split; [exact G3|].
  assert (left_over c1 = left_over c); [|lia]. unfold left_over. rewrite F4.
  pose proof (left_over_set _ _ _ t1 Hi) as L. rewrite F5 in L. lia.
Qed.

Lemma one_more : forall s0 calls c l, inv s0 calls c l -> cf_owner c = None -> ~ finished c ->
  exists sched c' l', trun pre body c sched = Done c' /\ inv s0 calls c' (l ++ l') /\ cf_owner c' = None /\
    (left_over c' < left_over c)%nat.
Proof.
  intros s0 calls c l Hinv Eo Hf.
  assert (exists i t, nth_error (cf_threads c) i = Some t /\ unfinished t <> []) as (i & t & Hi & Hu).
  { unfold finished in Hf. clear Hinv Eo. induction (cf_threads c) as [|u ts IH].
    - destruct Hf. constructor.
    - destruct (unfinished u) eqn:Eu.
      + destruct IH as (i & t & A & B). { intro F. apply Hf. constructor; assumption. }
        exists (Datatypes.S i), t. auto.
      + exists 0%nat, u. split; [reflexivity|]. congruence. }
  destruct (th_doing t) as [|o p|o q|o p] eqn:Ed.
  - unfold unfinished in Hu. rewrite Ed in Hu. destruct (th_todo t) as [|o r] eqn:Et; [congruence|].
    destruct (inv_step _ _ _ _ i Hinv) as (c1 & l1 & E & H1).
    pose proof E as E0. unfold tstep in E0. rewrite Hi, Ed, Et in E0. injection E0 as <-.
    edestruct before_done as (sched & c2 & l2 & F1 & F2 & F3 & F4);
      [exact H1|exact Eo|eapply nth_set_same; eassumption|reflexivity|].
    exists (i :: sched), c2, (l1 ++ l2). cbn [trun]. rewrite E. cbn [obind]. split; [exact F1|].
    split; [rewrite app_assoc; exact F2|]. split; [exact F3|].
    match type of F4 with (_ < left_over ?d)%nat => assert (left_over d = left_over c) as L; [|rewrite L in F4; exact F4] end.
    unfold left_over. cbn [cf_threads].
    match goal with |- context [set_nth i ?t'] => pose proof (left_over_set _ _ _ t' Hi) as L end.
    assert (unfinished t = o :: r) as Eu by (unfold unfinished; rewrite Ed, Et; reflexivity).
    rewrite Eu in L. cbn [unfinished th_doing th_todo length] in L.
    apply Nat.add_cancel_r in L. exact L.
  - eapply before_done; eassumption.
  - eapply waiting_done; eassumption.
  - destruct Hinv as (s1 & _ & _ & _ & _ & _ & _ & _ & Ht). destruct (Ht _ _ Hi) as (_ & _ & _ & A).
    rewrite Ed in A. cbn [active] in A. destruct A as [A _]. congruence.
Qed.

Lemma all_done : forall n s0 calls c l, inv s0 calls c l -> cf_owner c = None -> (left_over c <= n)%nat ->
  exists sched c' l', trun pre body c sched = Done c' /\ inv s0 calls c' (l ++ l') /\ cf_owner c' = None /\ finished c'.
Proof.
  induction n as [|n IH]; intros s0 calls c l Hinv Eo Hn.
  - exists [], c, []. rewrite app_nil_r. split; [reflexivity|]. split; [exact Hinv|]. split; [exact Eo|].
    unfold left_over in Hn. unfold finished. clear - Hn. induction (cf_threads c) as [|u ts IH]; [constructor|].
    cbn in Hn. rewrite app_length in Hn. constructor; [destruct (unfinished u); [reflexivity|cbn in Hn; lia]|]. apply IH. lia.
  - assert (finished c \/ ~ finished c) as [F|F].
    { unfold finished. induction (cf_threads c) as [|u ts IH2]; [left; constructor|].
      destruct (unfinished u) eqn:Eu.
      - destruct IH2 as [I|I]; [left; constructor; assumption|right; intro X; inversion X; auto].
      - right. intro X. inversion X. congruence. }
    + exists [], c, []. rewrite app_nil_r. auto.
    + destruct (one_more _ _ _ _ Hinv Eo F) as (sc & c1 & l1 & E1 & E2 & E3 & E4).
      destruct (IH _ _ _ _ E2 E3 ltac:(lia)) as (sc2 & c2 & l2 & F1 & F2 & F3 & F4).
      exists (sc ++ sc2), c2, (l1 ++ l2). rewrite trun_app, E1. cbn [obind]. rewrite app_assoc. auto.
Qed.

Lemma can_finish : forall s0 calls c l, inv s0 calls c l ->
  exists sched c' l', trun pre body c sched = Done c' /\ inv s0 calls c' (l ++ l') /\ cf_owner c' = None /\ finished c'.
Proof.
  intros s0 calls c l Hinv.
  assert (exists sched c' l', trun pre body c sched = Done c' /\ inv s0 calls c' (l ++ l') /\ cf_owner c' = None)
    as (sc & c1 & l1 & E1 & E2 & E3).
  { destruct (cf_owner c) as [i|] eqn:Eo; [|exists [], c, []; rewrite app_nil_r; auto].
    pose proof Hinv as (s1 & _ & _ & _ & _ & Ho & Hl & _ & Ht). specialize (Ho _ Eo). rewrite <- Hl in Ho.
    destruct (nth_error (cf_threads c) i) as [t|] eqn:Hi; [|apply nth_error_None in Hi; lia].
    destruct (Ht _ _ Hi) as (_ & _ & _ & A). destruct (th_doing t) as [|o p|o q|o p] eqn:Ed; cbn [active] in A.
    - congruence.
    - destruct A as [A _]. congruence.
    - destruct A as [A _]. congruence.
    - destruct (leave _ _ p _ _ _ _ _ Hinv Hi Ed) as (sched & c' & l' & t' & F1 & F2 & F3 & _).
      exists sched, c', l'. auto. }
  destruct (all_done _ _ _ _ _ E2 E3 (Nat.le_refl _)) as (sc2 & c2 & l2 & F1 & F2 & F3 & F4).
  exists (sc ++ sc2), c2, (l1 ++ l2). rewrite trun_app, E1. cbn [obind]. rewrite app_assoc. auto.
Qed.

Theorem mutex_linear : forall s0 calls, Good s0 -> Inv s0 -> Forall (Forall okO) calls ->
  forall sched1 sched2, exists c1 c2 l1 l2,
  trun pre body (tstart s0 calls) sched1 = Done c1 /\ trun pre body c1 sched2 = Done c2 /\
  inv s0 calls c1 l1 /\ inv s0 calls c2 (l1 ++ l2).
Proof.
  intros s0 calls HG HI Hc sc1 sc2.
  destruct (inv_run sc1 _ _ _ _ (inv_start _ _ HG HI Hc)) as (c1 & l1 & E1 & H1). cbn [app] in H1.
  destruct (inv_run sc2 _ _ _ _ H1) as (c2 & l2 & E2 & H2). exists c1, c2, l1, l2. auto.
Qed.
End Mutex.
