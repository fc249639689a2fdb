(* Threads and one mutex, where the steps before the mutex may race and the
   calls may have undefined behaviour. *)
From Coq Require Import List NArith Bool Lia PeanoNat.
From Verif Require Import Base Conc ConcAlone ConcRun ConcLinear ConcRead.
Import ListNotations.

Lemma seq_run_undef : forall S O R (step : S -> O -> outcome (S * R)) os s s1 rs o,
  seq_run step s os = Done (s1, rs) ->
  seq_run step s (os ++ [o]) = match step s1 o with Done (s2, r) => Done (s2, rs ++ [r]) | Undef u => Undef u | NoFuel => NoFuel end.
Proof.
  induction os as [|o' os IH]; intros s s1 rs o H1; cbn in *.
  - injection H1 as <- <-. destruct (step s o) as [[s2 r]|u|]; reflexivity.
  - destruct (step s o') as [[s' r']|u|]; cbn in *; try discriminate.
    destruct (seq_run step s' os) as [[s'' rs']|u|] eqn:E; cbn in *; try discriminate.
    injection H1 as <- <-. rewrite (IH _ _ _ o E). destruct (step s'' o) as [[s2 r]|u|]; reflexivity.
Qed.

Section Racy.
Context {S O Q R : Type}.
Variable pre : O -> prog S Q.
Variable body : Q -> prog S R.
Variable step : S -> O -> outcome (S * R).
Variable Inv : S -> Prop.
Variable Good : S -> Prop.
Variable okO : O -> Prop.
(* How the object develops, and when a step before the mutex may go wrong. *)
Variable le : S -> S -> Prop.
Variable racy : ub -> S -> Prop.
Hypothesis le_refl : forall s, le s s.
Hypothesis le_trans : forall s t u, le s t -> le t u -> le s u.
Hypothesis racy_le : forall u s t, racy u s -> le s t -> racy u t.

Fixpoint calm (s0 : S) (p : prog S Q) (q : Q) : Prop :=
  match p with
  | Ret q' => q' = q
  | Step f k => forall s, le s0 s -> Inv s ->
      match f s with
      | Done (s', b) => s' = s /\ calm s (k b) q
      | Undef u => racy u s
      | NoFuel => False
      end
  end.

Lemma calm_le : forall p q s t, calm s p q -> le s t -> calm t p q.
Proof. intros [q'|B f k] q s t H L; cbn [calm] in *; [exact H|]. intros s' L'. apply H. eapply le_trans; eassumption. Qed.

Fixpoint grows (p : prog S R) : Prop :=
  match p with
  | Ret _ => True
  | Step f k => (forall s s' b, Inv s -> f s = Done (s', b) -> le s s' /\ Inv s') /\ forall b, grows (k b)
  end.

Lemma grows_le : forall p s s' r, grows p -> Inv s -> alone p s = Done (s', r) -> le s s'.
Proof.
  induction p as [r'|B f k IH]; intros s s' r G HI E; cbn in E; [injection E as <- _; apply le_refl|].
  cbn in G. destruct G as [G1 G2]. destruct (f s) as [[s1 b]|u|] eqn:F; cbn in E; try discriminate.
  destruct (G1 _ _ _ HI F) as [L1 I1]. eapply le_trans; [exact L1|]. eapply IH; eauto.
Qed.

Definition fine (o : outcome (S * R)) : Prop :=
  match o with Done (s', _) => Good s' | Undef _ => True | NoFuel => False end.

Definition prepared (o : O) (q : Q) : Prop :=
  grows (body q) /\ forall s, Good s -> step s o = alone (body q) s /\ fine (step s o).

Hypothesis Hpre : forall o, okO o -> exists q, (forall s, Inv s -> calm s (pre o) q) /\ prepared o q.

Definition doing (owner : option nat) (mem s1 : S) (i : nat) (a : activity S O Q R) : Prop :=
  match a with
  | Idle => owner <> Some i
  | Before o p => owner <> Some i /\ exists q, calm mem p q /\ prepared o q
  | Waiting o q => owner <> Some i /\ prepared o q
  | Inside o p => owner = Some i /\ step s1 o = alone p mem /\ fine (step s1 o) /\ grows p
  end.

Definition rinv (s0 : S) (calls : list (list O)) (c : config S O Q R) (l : list (entry O R)) : Prop :=
  exists s1, seq_run step s0 (map e_op l) = Done (s1, map e_res l) /\ Good s1 /\ Inv (cf_mem c) /\
  (cf_owner c = None -> cf_mem c = s1) /\
  (forall i, cf_owner c = Some i -> (i < length calls)%nat) /\
  length (cf_threads c) = length calls /\
  (forall e, In e l -> (e_thread e < length calls)%nat) /\
  forall i t, nth_error (cf_threads c) i = Some t ->
    th_done t = map e_res (of_thread i l) /\
    nth_error calls i = Some (map e_op (of_thread i l) ++ unfinished t) /\
    Forall okO (th_todo t) /\
    doing (cf_owner c) (cf_mem c) s1 i (th_doing t).

Lemma rinv_explains : forall s0 calls c l, rinv s0 calls c l -> explains (seq_run step) s0 calls c l.
Proof.
  intros s0 calls c l (s1 & H1 & _ & _ & H2 & _ & H3 & H4 & H5). split; [exists s1; auto|].
  split; [exact H3|]. split; [exact H4|]. intros i t Ht. destruct (H5 i t Ht) as (A & B & _). auto.
Qed.

Lemma rinv_put : forall s0 calls c l s1 i t t' mem' owner',
  seq_run step s0 (map e_op l) = Done (s1, map e_res l) -> Good s1 -> Inv mem' ->
  (owner' = None -> mem' = s1) ->
  (forall j, owner' = Some j -> (j < length calls)%nat) ->
  length (cf_threads c) = length calls ->
  (forall e, In e l -> (e_thread e < length calls)%nat) ->
  (forall i t, nth_error (cf_threads c) i = Some t ->
    th_done t = map e_res (of_thread i l) /\
    nth_error calls i = Some (map e_op (of_thread i l) ++ unfinished t) /\
    Forall okO (th_todo t) /\
    doing (cf_owner c) (cf_mem c) s1 i (th_doing t)) ->
  nth_error (cf_threads c) i = Some t ->
  th_done t' = th_done t -> unfinished t' = unfinished t -> Forall okO (th_todo t') ->
  doing owner' mem' s1 i (th_doing t') ->
  (forall j a, j <> i -> doing (cf_owner c) (cf_mem c) s1 j a -> doing owner' mem' s1 j a) ->
  rinv s0 calls (Build_config mem' owner' (set_nth i t' (cf_threads c))) l.
Proof.
  intros s0 calls c l s1 i t t' mem' owner' H1 HG HI Hm Ho Hl He Ht Hi Hd Hu Hk Ha Hj.
  exists s1. cbn [cf_mem cf_owner cf_threads]. do 5 (split; [assumption|]).
  split; [rewrite length_set_nth; exact Hl|]. split; [exact He|].
  intros j u Hju. destruct (Nat.eq_dec i j) as [->|Hne].
  - rewrite (nth_set_same _ _ _ _ _ Hi) in Hju. injection Hju as <-.
    destruct (Ht _ _ Hi) as (A1 & A2 & A3 & A4). rewrite Hd, Hu. auto.
  - rewrite nth_set_other in Hju by exact Hne. destruct (Ht _ _ Hju) as (A1 & A2 & A3 & A4).
    repeat split; auto.
Qed.

(* What the calls of [l], and then a call of thread [i] if there is one, show. *)
Definition excuse (s0 : S) (calls : list (list O)) (u : ub) : Prop :=
  exists ps, drawn calls ps /\
  match seq_run step s0 (map snd ps) with
  | Done (s', _) => racy u s'
  | Undef v => u = v \/ exists s, racy u s
  | NoFuel => False
  end.

Definition picks (l : list (entry O R)) : list (nat * O) := map (fun e => (e_thread e, e_op e)) l.

Lemma picks_snd : forall l, map snd (picks l) = map e_op l.
Proof. intro l. unfold picks. rewrite map_map. reflexivity. Qed.
Lemma picks_of : forall i l, map snd (filter (fun p => Nat.eqb (fst p) i) (picks l)) = map e_op (of_thread i l).
Proof.
  intros i l. induction l as [|e l IH]; [reflexivity|]. cbn. destruct (Nat.eqb (e_thread e) i); cbn; [f_equal|]; exact IH.
Qed.

Lemma drawn_now : forall s0 calls c l, rinv s0 calls c l -> drawn calls (picks l).
Proof.
  intros s0 calls c l (s1 & _ & _ & _ & _ & _ & Hl & He & Ht). split.
  - intros p Hin. apply in_map_iff in Hin. destruct Hin as (e & <- & Hin). exact (He _ Hin).
  - intros i cs Ei. destruct (nth_error (cf_threads c) i) as [t|] eqn:E.
    + destruct (Ht _ _ E) as (_ & A & _). rewrite Ei in A. injection A as ->. rewrite picks_of. eauto.
    + apply nth_error_None in E. assert (nth_error calls i <> None) by congruence. apply nth_error_Some in H. lia.
Qed.

Lemma drawn_next : forall s0 calls c l i t o p, rinv s0 calls c l -> nth_error (cf_threads c) i = Some t ->
  th_doing t = Inside o p -> drawn calls (picks l ++ [(i, o)]).
Proof.
  intros s0 calls c l i t o p (s1 & _ & _ & _ & _ & _ & Hl & He & Ht) Hi Ed. split.
  - intros q Hin. apply in_app_or in Hin. destruct Hin as [Hin|[<-|[]]].
    + apply in_map_iff in Hin. destruct Hin as (e & <- & Hin). exact (He _ Hin).
    + cbn. rewrite <- Hl. apply nth_error_Some. congruence.
  - intros j cs Ej. rewrite filter_app, map_app, picks_of. cbn [filter fst].
    destruct (nth_error (cf_threads c) j) as [u|] eqn:E.
    + destruct (Ht _ _ E) as (_ & A & _). rewrite Ej in A. injection A as ->.
      destruct (Nat.eqb_spec i j) as [<-|Hne].
      * rewrite Hi in E. injection E as <-. unfold unfinished. rewrite Ed. exists (th_todo t). cbn. rewrite <- app_assoc. reflexivity.
      * cbn. rewrite app_nil_r. eauto.
    + apply nth_error_None in E. assert (nth_error calls j <> None) by congruence. apply nth_error_Some in H. lia.
Qed.

(* The thread inside, if there is one. *)
Lemma inside : forall s0 calls c l i, rinv s0 calls c l -> cf_owner c = Some i ->
  exists t o p, nth_error (cf_threads c) i = Some t /\ th_doing t = Inside o p.
Proof.
  intros s0 calls c l i (s1 & _ & _ & _ & _ & Ho & Hl & _ & Ht) Eo. specialize (Ho _ Eo). rewrite <- Hl in Ho.
  destruct (nth_error (cf_threads c) i) as [t|] eqn:Hi; [|apply nth_error_None in Hi; lia].
  destruct (Ht _ _ Hi) as (_ & _ & _ & A). destruct (th_doing t) as [|o p|o q|o p] eqn:Ed; cbn [doing] in A.
  - congruence.
  - destruct A as [A _]. congruence.
  - destruct A as [A _]. congruence.
  - exists t, o, p. auto.
Qed.

Lemma racy_excused : forall s0 calls c l u, rinv s0 calls c l -> racy u (cf_mem c) -> excuse s0 calls u.
Proof.
  intros s0 calls c l u Hinv Hr. pose proof Hinv as (s1 & H1 & HG & HI & Hm & Ho & Hl & He & Ht).
  destruct (cf_owner c) as [i|] eqn:Eo.
  - destruct (inside _ _ _ _ _ Hinv Eo) as (t & o & p & Hi & Ed).
    exists (picks l ++ [(i, o)]). split; [eapply drawn_next; eassumption|].
    rewrite map_app, picks_snd. cbn [map snd]. rewrite (seq_run_undef _ _ _ _ _ _ _ _ o H1).
    destruct (Ht _ _ Hi) as (_ & _ & _ & A). rewrite Ed in A. cbn [doing] in A. destruct A as (_ & A1 & A2 & A3).
    destruct (step s1 o) as [[s2 r]|v|]; [|right; eauto|exact A2].
    eapply racy_le; [exact Hr|]. eapply grows_le; eauto.
  - exists (picks l). split; [eapply drawn_now; exact Hinv|]. rewrite picks_snd, H1. rewrite <- (Hm eq_refl). exact Hr.
Qed.

Lemma inside_excused : forall s0 calls c l i t o p u, rinv s0 calls c l -> nth_error (cf_threads c) i = Some t ->
  th_doing t = Inside o p -> alone p (cf_mem c) = Undef u -> excuse s0 calls u.
Proof.
  intros s0 calls c l i t o p u Hinv Hi Ed Eu. pose proof Hinv as (s1 & H1 & _ & _ & _ & _ & _ & _ & Ht).
  exists (picks l ++ [(i, o)]). split; [eapply drawn_next; eassumption|].
  rewrite map_app, picks_snd. cbn [map snd]. rewrite (seq_run_undef _ _ _ _ _ _ _ _ o H1).
  destruct (Ht _ _ Hi) as (_ & _ & _ & A). rewrite Ed in A. cbn [doing] in A. destruct A as (_ & A1 & _).
  rewrite A1, Eu. auto.
Qed.

Lemma rinv_step : forall s0 calls c l i, rinv s0 calls c l ->
  match tstep pre body c i with
  | Done c' => exists l', rinv s0 calls c' (l ++ l')
  | Undef u => excuse s0 calls u
  | NoFuel => False
  end.
Proof.
  intros s0 calls c l i Hinv. pose proof Hinv as (s1 & H1 & HG & HI & Hm & Ho & Hl & He & Ht). unfold tstep.
  destruct (nth_error (cf_threads c) i) as [t|] eqn:Hi; [|exists []; rewrite app_nil_r; auto].
  destruct (Ht _ _ Hi) as (A1 & A2 & A3 & A4).
  destruct (th_doing t) as [|o p|o q|o p] eqn:Ed; cbn [doing] in A4.
  - (* Idle *)
    destruct (th_todo t) as [|o r] eqn:Et; [exists []; rewrite app_nil_r; auto|].
    exists []. rewrite app_nil_r.
    eapply rinv_put; try eassumption; cbn [th_doing th_done th_todo]; try reflexivity.
    + unfold unfinished. cbn. rewrite Ed, Et. reflexivity.
    + inversion A3; assumption.
    + cbn [doing]. split; [exact A4|]. inversion A3 as [|? ? K1 K2]; subst. destruct (Hpre _ K1) as (q & Q1 & Q2).
      exists q. split; [apply Q1; exact HI|exact Q2].
    + auto.
  - destruct A4 as (A4 & q & A5 & A6). destruct p as [q'|B f k]; cbn [calm] in A5.
    + subst q'. exists []. rewrite app_nil_r.
      eapply rinv_put; try eassumption; cbn [th_doing th_done th_todo]; try reflexivity; auto.
      * unfold unfinished. cbn. rewrite Ed. reflexivity.
      * cbn [doing]. auto.
    + specialize (A5 _ (le_refl _) HI). destruct (f (cf_mem c)) as [[s b]|u|] eqn:Eb; cbn [obind].
      * destruct A5 as [-> A5]. exists []. rewrite app_nil_r.
        eapply rinv_put; try eassumption; cbn [th_doing th_done th_todo]; try reflexivity; auto.
        -- unfold unfinished. cbn. rewrite Ed. reflexivity.
        -- cbn [doing]. split; [exact A4|]. exists q. auto.
      * eapply racy_excused; eassumption.
      * exact A5.
  - destruct A4 as (A4 & A5 & A6). destruct (cf_owner c) as [j|] eqn:Eo.
    { exists []. rewrite app_nil_r. auto. }
    exists []. rewrite app_nil_r.
    rewrite (Hm eq_refl). destruct (A6 _ HG) as (B1 & B2).
    eapply rinv_put; try eassumption; cbn [th_doing th_done th_todo]; try reflexivity; auto.
    + rewrite <- (Hm eq_refl). exact HI.
    + intros j Hj. injection Hj as <-. rewrite <- Hl. apply nth_error_Some. rewrite Hi. discriminate.
    + rewrite Eo. exact Ht.
    + unfold unfinished. cbn. rewrite Ed. reflexivity.
    + cbn [doing]. auto.
    + intros j a Hj. rewrite Eo. destruct a as [|o2 p2|o2 q2|o2 p2]; cbn [doing].
      * congruence.
      * intros [_ E]. split; [congruence|]. rewrite <- (Hm eq_refl). exact E.
      * intros [_ E]. split; [congruence|exact E].
      * intros [E _]. congruence.
  - destruct A4 as (A4 & B1 & B2 & B3). destruct p as [r'|B f k]; cbn [grows] in B3.
    + cbn [alone] in B1. rewrite B1 in B2. cbn [fine] in B2.
      exists [Build_entry i o r'].
      assert (Hlt : (i < length calls)%nat) by (rewrite <- Hl; apply nth_error_Some; rewrite Hi; discriminate).
      exists (cf_mem c). cbn [cf_mem cf_owner cf_threads]. rewrite !map_app. cbn [map e_op e_res].
      split; [eapply seq_run_snoc; eassumption|]. split; [exact B2|]. split; [exact HI|].
      split; [auto|]. split; [discriminate|]. split; [rewrite length_set_nth; exact Hl|].
      split. { intros e Hin. apply in_app_or in Hin. destruct Hin as [Hin|[<-|[]]]; auto. }
      intros j u Hju. destruct (Nat.eq_dec i j) as [<-|Hne].
      * rewrite (nth_set_same _ _ _ _ _ Hi) in Hju. injection Hju as <-. cbn [th_done th_doing th_todo].
        rewrite of_thread_app, !map_app. unfold of_thread at 2 4. cbn [filter e_thread].
        rewrite Nat.eqb_refl. cbn [map e_res e_op]. rewrite A1. split; [reflexivity|]. split.
        -- rewrite A2. unfold unfinished. rewrite Ed. cbn. rewrite <- app_assoc. reflexivity.
        -- split; [exact A3|]. cbn. congruence.
      * rewrite nth_set_other in Hju by exact Hne. destruct (Ht _ _ Hju) as (C1 & C2 & C3 & C4).
        rewrite of_thread_app. unfold of_thread at 2 4. cbn [filter e_thread].
        assert (E : Nat.eqb i j = false) by (apply Nat.eqb_neq; exact Hne). rewrite E, app_nil_r.
        split; [exact C1|]. split; [exact C2|]. split; [exact C3|].
        destruct (th_doing u) as [|o2 p2|o2 q2|o2 p2]; cbn [doing] in *.
        -- discriminate.
        -- destruct C4 as [_ C4]. split; [discriminate|exact C4].
        -- destruct C4 as [_ C4]. split; [discriminate|exact C4].
        -- destruct C4 as [C4 _]. congruence.
    + destruct B3 as [G1 G2]. cbn [alone] in B1. destruct (f (cf_mem c)) as [[s2 b]|u|] eqn:Eb; cbn [obind] in *.
      * destruct (G1 _ _ _ HI Eb) as [L I2]. exists []. rewrite app_nil_r.
        eapply rinv_put; try eassumption; cbn [th_doing th_done th_todo]; try reflexivity; auto.
        -- rewrite A4. discriminate.
        -- unfold unfinished. cbn. rewrite Ed. reflexivity.
        -- cbn [doing]. auto.
        -- intros j a Hj. destruct a as [|o2 p2|o2 q2|o2 p2]; cbn [doing]; auto.
           ++ intros (E & q2 & Q1 & Q2). split; [exact E|]. exists q2. split; [eapply calm_le; eassumption|exact Q2].
           ++ intros [E _]. congruence.
      * eapply inside_excused; try eassumption. cbn [alone]. rewrite Eb. reflexivity.
      * rewrite B1 in B2. exact B2.
Qed.

Lemma rinv_run : forall sched s0 calls c l, rinv s0 calls c l ->
  match trun pre body c sched with
  | Done c' => exists l', rinv s0 calls c' (l ++ l')
  | Undef u => excuse s0 calls u
  | NoFuel => False
  end.
Proof.
  induction sched as [|i sched IH]; intros s0 calls c l H; cbn [trun].
  - exists []. rewrite app_nil_r. auto.
  - pose proof (rinv_step _ _ _ _ i H) as H1. destruct (tstep pre body c i) as [c1|u|]; cbn [obind]; auto.
    destruct H1 as [l1 H1]. pose proof (IH _ _ _ _ H1) as H2. destruct (trun pre body c1 sched) as [c2|u|]; auto.
    destruct H2 as [l2 H2]. exists (l1 ++ l2). rewrite app_assoc. exact H2.
Qed.

Lemma rinv_start : forall s0 calls, Good s0 -> Inv s0 -> Forall (Forall okO) calls ->
  rinv s0 calls (tstart s0 calls) [].
Proof.
  intros s0 calls HG HI Hc. exists s0. cbn. split; [reflexivity|]. split; [exact HG|]. split; [exact HI|].
  split; [auto|]. split; [discriminate|]. split; [apply map_length|]. split; [intros e []|].
  intros i t Ht. rewrite nth_error_map in Ht. destruct (nth_error calls i) as [os|] eqn:E; cbn in Ht; [|discriminate].
  injection Ht as <-. cbn. split; [reflexivity|]. split; [reflexivity|]. split; [|discriminate].
  eapply (proj1 (Forall_forall _ _) Hc). eapply nth_error_In; eassumption.
Qed.

(* ---- no deadlock ---- *)
(* A schedule that ends with [T], or in undefined behaviour. *)
Definition gets (c : config S O Q R) (T : config S O Q R -> Prop) : Prop :=
  exists sched, match trun pre body c sched with Done c' => T c' | Undef _ => True | NoFuel => True end.

Lemma gets_here : forall c (T : config S O Q R -> Prop), T c -> gets c T.
Proof. intros c T H. exists []. exact H. Qed.
Lemma gets_step : forall c i T, (forall c', tstep pre body c i = Done c' -> gets c' T) -> gets c T.
Proof.
  intros c i T H. destruct (tstep pre body c i) as [c'|u|] eqn:E.
  - destruct (H _ eq_refl) as [sched K]. exists (i :: sched). cbn. rewrite E. exact K.
  - exists [i]. cbn. rewrite E. exact I.
  - exists [i]. cbn. rewrite E. exact I.
Qed.
Lemma gets_trans : forall c (T T' : config S O Q R -> Prop), gets c T -> (forall c', T c' -> gets c' T') -> gets c T'.
Proof.
  intros c T T' [s1 H] K. destruct (trun pre body c s1) as [c1|u|] eqn:E.
  - destruct (K _ H) as [s2 H2]. exists (s1 ++ s2). rewrite trun_app, E. exact H2.
  - exists s1. rewrite E. exact I.
  - exists s1. rewrite E. exact I.
Qed.

(* Thread i alone, from a moment when nobody else holds the mutex: its call returns. *)
Lemma run_inside : forall p c i t o, nth_error (cf_threads c) i = Some t -> th_doing t = Inside o p ->
  gets c (fun c' => cf_owner c' = None /\ exists r, cf_threads c' = set_nth i (Build_thread (th_todo t) Idle (th_done t ++ [r])) (cf_threads c)).
Proof.
  induction p as [r'|B f k IH]; intros c i t o Hi Ed.
  - apply (gets_step _ i). intros c' E. unfold tstep in E. rewrite Hi, Ed in E. injection E as <-.
    apply gets_here. split; [reflexivity|]. exists r'. reflexivity.
  - apply (gets_step _ i). intros c' E. unfold tstep in E. rewrite Hi, Ed in E.
    destruct (f (cf_mem c)) as [[s b]|u|]; cbn [obind] in E; try discriminate. injection E as <-.
    eapply gets_trans; [eapply (IH b); [cbn; eapply nth_set_same; eassumption|reflexivity]|].
    cbn [cf_threads th_todo th_done]. intros c' (E1 & r & E2). apply gets_here. split; [exact E1|]. exists r. rewrite E2. apply set_nth_twice.
Qed.

Lemma run_before : forall p c i t o, nth_error (cf_threads c) i = Some t -> th_doing t = Before o p ->
  gets c (fun c' => cf_owner c' = cf_owner c /\ exists q, cf_threads c' = set_nth i (Build_thread (th_todo t) (Waiting o q) (th_done t)) (cf_threads c)).
Proof.
  induction p as [q'|B f k IH]; intros c i t o Hi Ed.
  - apply (gets_step _ i). intros c' E. unfold tstep in E. rewrite Hi, Ed in E. injection E as <-.
    apply gets_here. split; [reflexivity|]. exists q'. reflexivity.
  - apply (gets_step _ i). intros c' E. unfold tstep in E. rewrite Hi, Ed in E.
    destruct (f (cf_mem c)) as [[s b]|u|]; cbn [obind] in E; try discriminate. injection E as <-.
    eapply gets_trans; [eapply (IH b); [cbn; eapply nth_set_same; eassumption|reflexivity]|].
    cbn [cf_threads cf_owner th_todo th_done]. intros c' (E1 & r & E2). apply gets_here. split; [exact E1|]. exists r. rewrite E2. apply set_nth_twice.
Qed.

Definition free (c : config S O Q R) : Prop :=
  cf_owner c = None /\ forall i t, nth_error (cf_threads c) i = Some t -> forall o p, th_doing t <> Inside o p.

Lemma free_put : forall c c' i t', free c -> cf_owner c' = None -> cf_threads c' = set_nth i t' (cf_threads c) ->
  (forall o p, th_doing t' <> Inside o p) -> free c'.
Proof.
  intros c c' i t' [_ F] E1 E2 K. split; [exact E1|]. intros j u Hj. rewrite E2 in Hj.
  destruct (Nat.eq_dec i j) as [<-|Hne].
  - destruct (nth_error (cf_threads c) i) as [t|] eqn:E.
    + rewrite (nth_set_same _ _ _ _ _ E) in Hj. injection Hj as <-. exact K.
    + apply nth_error_None in E. assert (nth_error (set_nth i t' (cf_threads c)) i <> None) as X by congruence.
      apply nth_error_Some in X. rewrite length_set_nth in X. lia.
  - rewrite nth_set_other in Hj by exact Hne. exact (F _ _ Hj).
Qed.

Lemma run_waiting : forall c i t o q, free c -> nth_error (cf_threads c) i = Some t -> th_doing t = Waiting o q ->
  gets c (fun c' => free c' /\ (left_over c' < left_over c)%nat).
Proof.
  intros c i t o q F Hi Ed. apply (gets_step _ i). intros c1 E. unfold tstep in E. rewrite Hi, Ed, (proj1 F) in E. injection E as <-.
  eapply gets_trans; [eapply run_inside; [cbn; eapply nth_set_same; eassumption|reflexivity]|].
  cbn [cf_threads th_todo th_done]. intros c' (E1 & r & E2). rewrite set_nth_twice in E2. apply gets_here. split.
  - eapply free_put; try eassumption. cbn. discriminate.
  - unfold left_over. rewrite E2. pose proof (left_over_set _ _ _ (Build_thread (th_todo t) Idle (th_done t ++ [r])) Hi) as L.
    unfold unfinished at 2 4 in L. rewrite Ed in L. cbn [th_doing th_todo length] in L. lia.
Qed.

Lemma run_free : forall c i t, free c -> nth_error (cf_threads c) i = Some t -> unfinished t <> [] ->
  gets c (fun c' => free c' /\ (left_over c' < left_over c)%nat).
Proof.
  assert (B : forall c i t o p, free c -> nth_error (cf_threads c) i = Some t -> th_doing t = Before o p ->
    gets c (fun c' => free c' /\ (left_over c' < left_over c)%nat)).
  { intros c i t o p F Hi Ed. eapply gets_trans; [eapply run_before; eassumption|]. intros c1 (E1 & q & E2).
    assert (F1 : free c1). { eapply free_put; [exact F|rewrite E1; exact (proj1 F)|exact E2|]. cbn. discriminate. }
    assert (L : left_over c1 = left_over c).
    { unfold left_over. rewrite E2. pose proof (left_over_set _ _ _ (Build_thread (th_todo t) (Waiting o q) (th_done t)) Hi) as L.
      unfold unfinished at 2 4 in L. rewrite Ed in L. cbn [th_doing th_todo length] in L. lia. }
    rewrite <- L. eapply run_waiting; [exact F1|rewrite E2; eapply nth_set_same; eassumption|reflexivity]. }
  intros c i t F Hi Hu. destruct (th_doing t) as [|o p|o q|o p] eqn:Ed.
  - destruct (th_todo t) as [|o r] eqn:Et.
    { unfold unfinished in Hu. rewrite Ed, Et in Hu. congruence. }
    apply (gets_step _ i). intros c1 E. unfold tstep in E. rewrite Hi, Ed, Et in E. injection E as <-.
    match goal with |- gets ?d _ => assert (L : left_over d = left_over c) end.
    { unfold left_over. cbn [cf_threads].
      pose proof (left_over_set _ _ _ (Build_thread r (Before o (pre o)) (th_done t)) Hi) as L.
      unfold unfinished at 2 4 in L. rewrite Ed, Et in L. cbn [th_doing th_todo length] in L. lia. }
    rewrite <- L. eapply B; [|cbn; eapply nth_set_same; eassumption|reflexivity].
    eapply free_put; [exact F|exact (proj1 F)|reflexivity|]. cbn. discriminate.
  - eapply B; eassumption.
  - eapply run_waiting; eassumption.
  - exfalso. exact (proj2 F _ _ Hi _ _ Ed).
Qed.

Lemma run_all : forall n c, free c -> (left_over c <= n)%nat -> gets c finished.
Proof.
  induction n as [|n IH]; intros c F Hn.
  - apply gets_here. unfold left_over in Hn. unfold finished. clear F. induction (cf_threads c) as [|u ts IH]; [constructor|].
    cbn in Hn. rewrite app_length in Hn. constructor; [destruct (unfinished u); [reflexivity|cbn in Hn; lia]|]. apply IH. lia.
  - assert (finished c \/ exists i t, nth_error (cf_threads c) i = Some t /\ unfinished t <> []) as [K|(i & t & Hi & Hu)].
    { unfold finished. clear F Hn. induction (cf_threads c) as [|u ts IH2]; [left; constructor|].
      destruct (unfinished u) eqn:Eu.
      - destruct IH2 as [J|(i & t & J1 & J2)]; [left; constructor; assumption|]. right. exists (Datatypes.S i), t. auto.
      - right. exists 0%nat, u. split; [reflexivity|]. congruence. }
    + apply gets_here. exact K.
    + eapply gets_trans; [eapply run_free; eassumption|]. intros c1 [F1 L]. apply IH; [exact F1|lia].
Qed.

Lemma completes : forall s0 calls c l, rinv s0 calls c l -> gets c finished.
Proof.
  intros s0 calls c l Hinv.
  assert (O1 : forall j u o p, nth_error (cf_threads c) j = Some u -> th_doing u = Inside o p -> cf_owner c = Some j).
  { intros j u o p Hj Ed. destruct Hinv as (s1 & _ & _ & _ & _ & _ & _ & _ & Ht). destruct (Ht _ _ Hj) as (_ & _ & _ & A).
    rewrite Ed in A. exact (proj1 A). }
  destruct (cf_owner c) as [i|] eqn:Eo.
  - destruct (inside _ _ _ _ _ Hinv Eo) as (t & o & p & Hi & Ed).
    eapply gets_trans; [eapply run_inside; eassumption|]. intros c1 (E1 & r & E2). eapply run_all; [|apply Nat.le_refl].
    split; [exact E1|]. intros j u Hj o2 p2 K. rewrite E2 in Hj. destruct (Nat.eq_dec i j) as [<-|Hne].
    + rewrite (nth_set_same _ _ _ _ _ Hi) in Hj. injection Hj as <-. discriminate.
    + rewrite nth_set_other in Hj by exact Hne. pose proof (O1 _ _ _ _ Hj K). congruence.
  - eapply run_all; [|apply Nat.le_refl]. split; [exact Eo|]. intros j u Hj o p K. pose proof (O1 _ _ _ _ Hj K). discriminate.
Qed.

Lemma racy_linear : forall s0 calls, Good s0 -> Inv s0 -> Forall (Forall okO) calls ->
  forall sched1 sched2,
  match trun pre body (tstart s0 calls) sched1 with
  | Done c1 =>
    exists l1, explains (seq_run step) s0 calls c1 l1 /\
    match trun pre body c1 sched2 with
    | Done c2 => exists l2, explains (seq_run step) s0 calls c2 (l1 ++ l2)
    | Undef u => excuse s0 calls u
    | NoFuel => False
    end /\
    exists sched3,
    match trun pre body c1 sched3 with
    | Done c3 => finished c3
    | Undef u => excuse s0 calls u
    | NoFuel => False
    end
  | Undef u => excuse s0 calls u
  | NoFuel => False
  end.
Proof.
  intros s0 calls HG HI Hc sc1 sc2.
  pose proof (rinv_run sc1 _ _ _ _ (rinv_start _ _ HG HI Hc)) as H1. cbn [app] in H1.
  destruct (trun pre body (tstart s0 calls) sc1) as [c1|u|]; auto. destruct H1 as [l1 H1]. exists l1.
  split; [apply rinv_explains; exact H1|]. split.
  - pose proof (rinv_run sc2 _ _ _ _ H1) as H2. destruct (trun pre body c1 sc2) as [c2|u|]; auto.
    destruct H2 as [l2 H2]. exists l2. apply rinv_explains. exact H2.
  - destruct (completes _ _ _ _ H1) as [sc3 K]. exists sc3.
    pose proof (rinv_run sc3 _ _ _ _ H1) as H2. destruct (trun pre body c1 sc3) as [c2|u|]; auto.
Qed.
End Racy.
