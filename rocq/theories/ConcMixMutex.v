(* Threads and two mutexes, one for what sends and one for what receives. *)
From Coq Require Import List NArith Bool Lia PeanoNat.
From Verif Require Import Base Aead Hkdf HalfConn Options HsHandler Crypter FrameProt CrypterProofs
  Conc ConcAlone ConcTag ConcBoth ConcRun ConcLinear ConcRead ConcReadMutex ConcReadProofs ConcMix.
Import ListNotations.
Local Open Scope N_scope.

(* ---- the two sides do not touch each other ---- *)
Lemma load_use : forall x B (k : N -> prog crypt B), tag16 x ->
  alone (Step load_in (fun p => Step (use_in p) k)) x = alone (k 16) x.
Proof.
  intros x B k T. cbn [alone]. unfold load_in. cbn [obind]. rewrite (tag16_load x T). unfold use_in, use_tag, epoch_in.
  rewrite N.eqb_refl. unfold tag16 in T. rewrite T. reflexivity.
Qed.

Lemma outbound_transfer : forall A (p : prog crypt A), outbound p -> forall w z, tag16 w -> tag16 z -> cx_out w = cx_out z ->
  alone p w = obind (alone p z) (fun '(x, r) => Done (set_out w (cx_out x), r)).
Proof.
  intros A p H. induction H as [r|B f k [g F] Hk IH|k Hk IH]; intros w z Tw Tz E.
  - cbn. rewrite <- E, set_out_same. reflexivity.
  - cbn [alone]. rewrite !F, E. destruct (g (cx_out z)) as [[h b]|u|]; cbn [obind]; [|reflexivity|reflexivity].
    rewrite (IH b (set_out w h) (set_out z h)); [|exact Tw|exact Tz|reflexivity].
    destruct (alone (k b) (set_out z h)) as [[x r]|u|]; reflexivity.
  - rewrite (load_use w _ k Tw), (load_use z _ k Tz). apply IH; assumption.
Qed.

Lemma outbound_in : forall A (p : prog crypt A), outbound p -> forall w x r, tag16 w ->
  alone p w = Done (x, r) -> x = set_out w (cx_out x).
Proof.
  intros A p H w x r T E. pose proof (outbound_transfer _ _ H w w T T eq_refl) as K. rewrite E in K. cbn in K. injection K as K. exact K.
Qed.

Lemma inbound_transfer : forall A (p : prog crypt A), inbound p -> forall x h,
  alone p (set_out x h) = obind (alone p x) (fun '(x', r) => Done (set_out x' h, r)).
Proof.
  intros A p H. induction H as [r|B f k [F _] Hk IH]; intros x h; [reflexivity|].
  cbn [alone]. rewrite F. destruct (f x) as [[x1 b]|u|]; cbn [obind]; auto.
Qed.

Lemma inbound_out : forall B (f : crypt -> outcome (crypt * B)) x x' b, inbound_step f ->
  f x = Done (x', b) -> cx_out x' = cx_out x.
Proof.
  intros B f x x' b [F _] E. pose proof (F x (cx_out x)) as K. rewrite set_out_same, E in K. cbn in K. injection K as K.
  rewrite K. reflexivity.
Qed.

Section Mixed.
Context {O Q R : Type}.
Variable lock : O -> bool.
Variable pre : O -> prog crypt Q.
Variable body : Q -> prog crypt R.
Variable step : crypt -> O -> outcome (crypt * R).
Variable Good : crypt -> Prop.
Variable okO : O -> Prop.
Variable e0 : N.
Hypothesis Good_tag : forall x, Good x -> tag16 x.

Definition side (b : bool) (p : prog crypt R) : Prop := if b then outbound p else inbound p.
Definition mprep (o : O) (q : Q) : Prop :=
  side (lock o) (body q) /\ forall s, Good s -> step s o = alone (body q) s /\ fine Good (step s o).
Hypothesis Hpre : forall o, okO o -> exists q,
  (forall s, rd_inv e0 s -> calm (rd_inv e0) rd_le (rd_racy e0) s (pre o) q) /\ mprep o q.

(* A sender: the program it runs, as if no key were ever changed. *)
Definition stands (mem : crypt) (p q : prog crypt R) : Prop :=
  outbound q /\
  (p = q \/ exists n k, p = Step (use_in (Some n)) k /\ q = k 16 /\ e0 <= n <= epoch_in mem).

Definition writing (mem s1 : crypt) (o : O) (p : prog crypt R) : Prop :=
  exists q0 q, mprep o q0 /\ stands mem p q /\ step s1 o = alone q (set_out s1 (cx_out mem)).
Definition reading (mem s1 : crypt) (o : O) (p : prog crypt R) : Prop :=
  exists q0, mprep o q0 /\ inbound p /\ step s1 o = alone p (set_out mem (cx_out s1)).

Definition mdoing (w r : option nat) (mem s1 : crypt) (i : nat) (a : activity crypt O Q R) : Prop :=
  match a with
  | Idle => w <> Some i /\ r <> Some i
  | Before o p => (w <> Some i /\ r <> Some i) /\ exists q, calm (rd_inv e0) rd_le (rd_racy e0) mem p q /\ mprep o q
  | Waiting o q => (w <> Some i /\ r <> Some i) /\ mprep o q
  | Inside o p =>
    if lock o then w = Some i /\ r <> Some i /\ writing mem s1 o p
    else r = Some i /\ w <> Some i /\ reading mem s1 o p
  end.

Definition minv (s0 : crypt) (calls : list (list O)) (c : mconfig crypt O Q R) (l : list (entry O R)) : Prop :=
  exists s1, seq_run step s0 (map e_op l) = Done (s1, map e_res l) /\ Good s1 /\ rd_inv e0 (mc_mem c) /\
  (mc_writer c = None -> cx_out (mc_mem c) = cx_out s1) /\
  (mc_reader c = None -> mc_mem c = set_out s1 (cx_out (mc_mem c))) /\
  (forall i, mc_writer c = Some i -> (i < length calls)%nat) /\
  (forall i, mc_reader c = Some i -> (i < length calls)%nat) /\
  length (mc_threads c) = length calls /\
  (forall e, In e l -> (e_thread e < length calls)%nat) /\
  forall i t, nth_error (mc_threads c) i = Some t ->
    th_done t = map e_res (of_thread i l) /\
    nth_error calls i = Some (map e_op (of_thread i l) ++ unfinished t) /\
    Forall okO (th_todo t) /\
    mdoing (mc_writer c) (mc_reader c) (mc_mem c) s1 i (th_doing t).

Lemma minv_explains : forall s0 calls c l, minv s0 calls c l -> m_explains (seq_run step) s0 calls c l.
Proof.
  intros s0 calls c l (s1 & H1 & _ & _ & Hw & Hr & _ & _ & H3 & H4 & H5). split.
  - exists s1. split; [exact H1|]. intros Ew Er. rewrite (Hr Er), (Hw Ew). apply set_out_same.
  - split; [exact H3|]. split; [exact H4|]. intros i t Ht. destruct (H5 i t Ht) as (A & B & _). auto.
Qed.

Lemma minv_put : forall s0 calls c l s1 i t t' mem' w' r',
  seq_run step s0 (map e_op l) = Done (s1, map e_res l) -> Good s1 -> rd_inv e0 mem' ->
  (w' = None -> cx_out mem' = cx_out s1) ->
  (r' = None -> mem' = set_out s1 (cx_out mem')) ->
  (forall j, w' = Some j -> (j < length calls)%nat) ->
  (forall j, r' = Some j -> (j < length calls)%nat) ->
  length (mc_threads c) = length calls ->
  (forall e, In e l -> (e_thread e < length calls)%nat) ->
  (forall i t, nth_error (mc_threads c) i = Some t ->
    th_done t = map e_res (of_thread i l) /\
    nth_error calls i = Some (map e_op (of_thread i l) ++ unfinished t) /\
    Forall okO (th_todo t) /\
    mdoing (mc_writer c) (mc_reader c) (mc_mem c) s1 i (th_doing t)) ->
  nth_error (mc_threads c) i = Some t ->
  th_done t' = th_done t -> unfinished t' = unfinished t -> Forall okO (th_todo t') ->
  mdoing w' r' mem' s1 i (th_doing t') ->
  (forall j a, j <> i -> mdoing (mc_writer c) (mc_reader c) (mc_mem c) s1 j a -> mdoing w' r' mem' s1 j a) ->
  minv s0 calls (Build_mconfig mem' w' r' (set_nth i t' (mc_threads c))) l.
Proof.
  intros s0 calls c l s1 i t t' mem' w' r' H1 HG HI Hw Hr Ow Or Hl He Ht Hi Hd Hu Hk Ha Hj.
  exists s1. cbn [mc_mem mc_writer mc_reader mc_threads]. do 7 (split; [assumption|]).
  split; [rewrite length_set_nth; exact Hl|]. split; [exact He|].
  intros j u Hju. destruct (Nat.eq_dec i j) as [->|Hne].
  - rewrite (nth_set_same _ _ _ _ _ Hi) in Hju. injection Hju as <-.
    destruct (Ht _ _ Hi) as (A1 & A2 & A3 & A4). rewrite Hd, Hu. auto.
  - rewrite nth_set_other in Hju by exact Hne. destruct (Ht _ _ Hju) as (A1 & A2 & A3 & A4).
    split; [exact A1|]. split; [exact A2|]. split; [exact A3|]. auto.
Qed.

Lemma mdrawn_now : forall s0 calls c l, minv s0 calls c l -> drawn calls (picks l).
Proof.
  intros s0 calls c l (s1 & _ & _ & _ & _ & _ & _ & _ & Hl & He & Ht). split.
  - intros p Hin. apply in_map_iff in Hin. destruct Hin as (e & <- & Hin). exact (He _ Hin).
  - intros i cs Ei. destruct (nth_error (mc_threads c) i) as [t|] eqn:E.
    + destruct (Ht _ _ E) as (_ & A & _). rewrite Ei in A. injection A as ->. rewrite picks_of. eauto.
    + apply nth_error_None in E. assert (nth_error calls i <> None) by congruence. apply nth_error_Some in H. lia.
Qed.

Lemma mdrawn_next : forall s0 calls c l i t o p, minv s0 calls c l -> nth_error (mc_threads c) i = Some t ->
  th_doing t = Inside o p -> drawn calls (picks l ++ [(i, o)]).
Proof.
  intros s0 calls c l i t o p (s1 & _ & _ & _ & _ & _ & _ & _ & Hl & He & Ht) Hi Ed. split.
  - intros q Hin. apply in_app_or in Hin. destruct Hin as [Hin|[<-|[]]].
    + apply in_map_iff in Hin. destruct Hin as (e & <- & Hin). exact (He _ Hin).
    + cbn. rewrite <- Hl. apply nth_error_Some. congruence.
  - intros j cs Ej. rewrite filter_app, map_app, picks_of. cbn [filter fst].
    destruct (nth_error (mc_threads c) j) as [u|] eqn:E.
    + destruct (Ht _ _ E) as (_ & A & _). rewrite Ej in A. injection A as ->.
      destruct (Nat.eqb_spec i j) as [<-|Hne].
      * rewrite Hi in E. injection E as <-. unfold unfinished. rewrite Ed. exists (th_todo t). cbn. rewrite <- app_assoc. reflexivity.
      * cbn. rewrite app_nil_r. eauto.
    + apply nth_error_None in E. assert (nth_error calls j <> None) by congruence. apply nth_error_Some in H. lia.
Qed.

(* The threads inside, if there are any. *)
Lemma writer_inside : forall s0 calls c l i, minv s0 calls c l -> mc_writer c = Some i ->
  exists t o p, nth_error (mc_threads c) i = Some t /\ th_doing t = Inside o p /\ lock o = true.
Proof.
  intros s0 calls c l i (s1 & _ & _ & _ & _ & _ & Ow & _ & Hl & _ & Ht) Eo. specialize (Ow _ Eo). rewrite <- Hl in Ow.
  destruct (nth_error (mc_threads c) i) as [t|] eqn:Hi; [|apply nth_error_None in Hi; lia].
  destruct (Ht _ _ Hi) as (_ & _ & _ & A). destruct (th_doing t) as [|o p|o q|o p] eqn:Ed; cbn [mdoing] in A.
  - destruct A as [A _]. congruence.
  - destruct A as [[A _] _]. congruence.
  - destruct A as [[A _] _]. congruence.
  - destruct (lock o) eqn:L; [|destruct A as (_ & A & _); congruence]. exists t, o, p. auto.
Qed.
Lemma reader_inside : forall s0 calls c l i, minv s0 calls c l -> mc_reader c = Some i ->
  exists t o p, nth_error (mc_threads c) i = Some t /\ th_doing t = Inside o p /\ lock o = false.
Proof.
  intros s0 calls c l i (s1 & _ & _ & _ & _ & _ & _ & Or & Hl & _ & Ht) Eo. specialize (Or _ Eo). rewrite <- Hl in Or.
  destruct (nth_error (mc_threads c) i) as [t|] eqn:Hi; [|apply nth_error_None in Hi; lia].
  destruct (Ht _ _ Hi) as (_ & _ & _ & A). destruct (th_doing t) as [|o p|o q|o p] eqn:Ed; cbn [mdoing] in A.
  - destruct A as [_ A]. congruence.
  - destruct A as [[_ A] _]. congruence.
  - destruct A as [[_ A] _]. congruence.
  - destruct (lock o) eqn:L; [destruct A as (_ & A & _); congruence|]. exists t, o, p. auto.
Qed.

Definition mexcuse := excuse step (rd_racy e0).

Lemma mracy_excused : forall s0 calls c l u, minv s0 calls c l -> rd_racy e0 u (mc_mem c) -> mexcuse s0 calls u.
Proof.
  intros s0 calls c l u Hinv Hr. pose proof Hinv as (s1 & H1 & HG & HI & Hw & Hrd & Ow & Or & Hl & He & Ht).
  destruct (mc_reader c) as [i|] eqn:Eo.
  - destruct (reader_inside _ _ _ _ _ Hinv Eo) as (t & o & p & Hi & Ed & L).
    exists (picks l ++ [(i, o)]). split; [eapply mdrawn_next; eassumption|].
    rewrite map_app, picks_snd. cbn [map snd]. rewrite (seq_run_undef _ _ _ _ _ _ _ _ o H1).
    destruct (Ht _ _ Hi) as (_ & _ & _ & A). rewrite Ed in A. cbn [mdoing] in A. rewrite L in A.
    destruct A as (_ & _ & q0 & [_ A1] & A2 & A3). destruct (A1 _ HG) as [_ F].
    destruct (step s1 o) as [[s2 r]|v|]; [|right; eauto|exact F].
    eapply rd_racy_le; [exact Hr|]. symmetry in A3. apply (inbound_epoch _ _ A2) in A3. exact A3.
  - exists (picks l). split; [eapply mdrawn_now; exact Hinv|]. rewrite picks_snd, H1.
    pose proof (Hrd eq_refl) as K. unfold rd_racy, epoch_in in *. rewrite K in Hr. exact Hr.
Qed.

Lemma minside_excused : forall s0 calls c l s1 i t o p u, minv s0 calls c l ->
  seq_run step s0 (map e_op l) = Done (s1, map e_res l) -> nth_error (mc_threads c) i = Some t ->
  th_doing t = Inside o p -> step s1 o = Undef u -> mexcuse s0 calls u.
Proof.
  intros s0 calls c l s1 i t o p u Hinv H1 Hi Ed Eu.
  exists (picks l ++ [(i, o)]). split; [eapply mdrawn_next; eassumption|].
  rewrite map_app, picks_snd. cbn [map snd]. rewrite (seq_run_undef _ _ _ _ _ _ _ _ o H1), Eu. auto.
Qed.

(* Other threads, when the memory changes on one side. *)
Lemma others_out : forall w r mem s1 h i j a, w = Some i -> j <> i ->
  mdoing w r mem s1 j a -> mdoing w r (set_out mem h) s1 j a.
Proof.
  intros w r mem s1 h i j a E Hj. destruct a as [|o p|o q|o p]; cbn [mdoing]; auto.
  - intros (A & q & B & C). split; [exact A|]. exists q. split; [|exact C].
    eapply calm_le; [apply rd_le_trans|exact B|]. apply N.le_refl.
  - destruct (lock o); [intros (A & _); congruence|]. auto.
Qed.
Lemma others_in : forall w r mem mem' s1 i j a, r = Some i -> j <> i -> cx_out mem' = cx_out mem -> epoch_in mem <= epoch_in mem' ->
  mdoing w r mem s1 j a -> mdoing w r mem' s1 j a.
Proof.
  intros w r mem mem' s1 i j a E Hj Eo Le. destruct a as [|o p|o q|o p]; cbn [mdoing]; auto.
  - intros (A & q & B & C). split; [exact A|]. exists q. split; [|exact C].
    eapply calm_le; [apply rd_le_trans|exact B|exact Le].
  - destruct (lock o); [|intros (A & _); congruence]. intros (A & B & q0 & q & C & D & F). split; [exact A|]. split; [exact B|].
    exists q0, q. split; [exact C|]. rewrite Eo. split; [|exact F]. destruct D as [D1 D2]. split; [exact D1|].
    destruct D2 as [D2|(n & k & D2 & D3 & D4)]; [left; exact D2|]. right. exists n, k. split; [exact D2|]. split; [exact D3|lia].
Qed.
(* Other threads, when a call has returned. *)
Lemma others_wrote : forall r mem s1 i j a, j <> i -> Good s1 -> Good (set_out s1 (cx_out mem)) ->
  mdoing (Some i) r mem s1 j a -> mdoing None r mem (set_out s1 (cx_out mem)) j a.
Proof.
  intros r mem s1 i j a Hj G1 G2. destruct a as [|o p|o q|o p]; cbn [mdoing].
  - intros [_ A]. split; [discriminate|exact A].
  - intros [[_ A] B]. split; [split; [discriminate|exact A]|exact B].
  - intros [[_ A] B]. split; [split; [discriminate|exact A]|exact B].
  - destruct (lock o) eqn:L; [intros (A & _); congruence|]. intros (A & _ & q0 & B & C & D).
    split; [exact A|]. split; [discriminate|]. exists q0. split; [exact B|]. split; [exact C|].
    destruct B as [B1 B2]. rewrite L in B1. cbn [side] in B1. destruct (B2 _ G2) as [E2 _]. destruct (B2 _ G1) as [E1 _].
    rewrite E2, (inbound_transfer _ _ B1), <- E1, D. cbn [cx_out set_out].
    symmetry. exact (inbound_transfer _ _ C (set_out mem (cx_out s1)) (cx_out mem)).
Qed.
Lemma others_read : forall w mem s1 i j a, j <> i -> Good s1 -> Good (set_out mem (cx_out s1)) ->
  mdoing w (Some i) mem s1 j a -> mdoing w None mem (set_out mem (cx_out s1)) j a.
Proof.
  intros w mem s1 i j a Hj G1 G2. destruct a as [|o p|o q|o p]; cbn [mdoing].
  - intros [A _]. split; [exact A|discriminate].
  - intros [[A _] B]. split; [split; [exact A|discriminate]|exact B].
  - intros [[A _] B]. split; [split; [exact A|discriminate]|exact B].
  - destruct (lock o) eqn:L; [|intros (A & _); congruence]. intros (A & _ & q0 & q & B & C & D).
    split; [exact A|]. split; [discriminate|]. exists q0, q. split; [exact B|]. split; [exact C|].
    destruct B as [B1 B2]. rewrite L in B1. cbn [side] in B1. destruct (B2 _ G2) as [E2 _]. destruct (B2 _ G1) as [E1 _].
    pose proof (Good_tag _ G1) as T1. pose proof (Good_tag _ G2) as T2.
    rewrite E2, (outbound_transfer _ _ B1 _ s1 T2 T1 eq_refl), <- E1, D. destruct C as [C _].
    rewrite (outbound_transfer _ _ C (set_out (set_out mem (cx_out s1)) (cx_out mem)) (set_out s1 (cx_out mem)) T2 T1 eq_refl).
    reflexivity.
Qed.

(* A call returns. *)
Lemma minv_return : forall s0 calls c l s1 i t o p r w' r' s2,
  seq_run step s0 (map e_op l) = Done (s1, map e_res l) -> step s1 o = Done (s2, r) -> Good s2 -> rd_inv e0 (mc_mem c) ->
  (w' = None -> cx_out (mc_mem c) = cx_out s2) ->
  (r' = None -> mc_mem c = set_out s2 (cx_out (mc_mem c))) ->
  (forall j, w' = Some j -> (j < length calls)%nat) ->
  (forall j, r' = Some j -> (j < length calls)%nat) ->
  length (mc_threads c) = length calls ->
  (forall e, In e l -> (e_thread e < length calls)%nat) ->
  (forall i t, nth_error (mc_threads c) i = Some t ->
    th_done t = map e_res (of_thread i l) /\
    nth_error calls i = Some (map e_op (of_thread i l) ++ unfinished t) /\
    Forall okO (th_todo t) /\
    mdoing (mc_writer c) (mc_reader c) (mc_mem c) s1 i (th_doing t)) ->
  nth_error (mc_threads c) i = Some t -> th_doing t = Inside o p ->
  w' <> Some i -> r' <> Some i ->
  (forall j a, j <> i -> mdoing (mc_writer c) (mc_reader c) (mc_mem c) s1 j a -> mdoing w' r' (mc_mem c) s2 j a) ->
  minv s0 calls (Build_mconfig (mc_mem c) w' r' (set_nth i (Build_thread (th_todo t) Idle (th_done t ++ [r])) (mc_threads c)))
    (l ++ [Build_entry i o r]).
Proof.
  intros s0 calls c l s1 i t o p r w' r' s2 H1 E G2 HI Hw Hr Ow Or Hl He Ht Hi Ed W' R' Hj.
  assert (Hlt : (i < length calls)%nat) by (rewrite <- Hl; apply nth_error_Some; rewrite Hi; discriminate).
  exists s2. cbn [mc_mem mc_writer mc_reader mc_threads]. rewrite !map_app. cbn [map e_op e_res].
  split; [eapply seq_run_snoc; eassumption|]. do 6 (split; [assumption|]).
  split; [rewrite length_set_nth; exact Hl|].
  split. { intros e Hin. apply in_app_or in Hin. destruct Hin as [Hin|[<-|[]]]; auto. }
  intros j u Hju. destruct (Nat.eq_dec i j) as [<-|Hne].
  - rewrite (nth_set_same _ _ _ _ _ Hi) in Hju. injection Hju as <-. cbn [th_done th_doing th_todo].
    destruct (Ht _ _ Hi) as (A1 & A2 & A3 & A4).
    rewrite of_thread_app, !map_app. unfold of_thread at 2 4. cbn [filter e_thread].
    rewrite Nat.eqb_refl. cbn [map e_res e_op]. rewrite A1. split; [reflexivity|]. split.
    + rewrite A2. unfold unfinished. rewrite Ed. cbn. rewrite <- app_assoc. reflexivity.
    + split; [exact A3|]. cbn. auto.
  - rewrite nth_set_other in Hju by exact Hne. destruct (Ht _ _ Hju) as (C1 & C2 & C3 & C4).
    rewrite of_thread_app. unfold of_thread at 2 4. cbn [filter e_thread].
    assert (Eq : Nat.eqb i j = false) by (apply Nat.eqb_neq; exact Hne). rewrite Eq, app_nil_r.
    split; [exact C1|]. split; [exact C2|]. split; [exact C3|]. auto.
Qed.

Lemma minv_step : forall s0 calls c l i, minv s0 calls c l ->
  match mstep lock pre body c i with
  | Done c' => exists l', minv s0 calls c' (l ++ l')
  | Undef u => mexcuse s0 calls u
  | NoFuel => False
  end.
Proof.
  intros s0 calls c l i Hinv. pose proof Hinv as (s1 & H1 & HG & HI & Hw & Hr & Ow & Or & Hl & He & Ht). unfold mstep.
  destruct (nth_error (mc_threads c) i) as [t|] eqn:Hi; [|exists []; rewrite app_nil_r; auto].
  assert (Hlt : (i < length calls)%nat) by (rewrite <- Hl; apply nth_error_Some; rewrite Hi; discriminate).
  destruct (Ht _ _ Hi) as (A1 & A2 & A3 & A4).
  destruct (th_doing t) as [|o p|o q|o p] eqn:Ed; cbn [mdoing] in A4.
  - (* Idle *)
    destruct (th_todo t) as [|o r] eqn:Et; [exists []; rewrite app_nil_r; auto|].
    exists []. rewrite app_nil_r.
    eapply minv_put; try eassumption; cbn [th_doing th_done th_todo]; try reflexivity.
    + unfold unfinished. cbn. rewrite Ed, Et. reflexivity.
    + inversion A3; assumption.
    + cbn [mdoing]. split; [exact A4|]. inversion A3 as [|? ? K1 K2]; subst. destruct (Hpre _ K1) as (q & Q1 & Q2).
      exists q. split; [apply Q1; exact HI|exact Q2].
    + auto.
  - destruct A4 as (A4 & q & A5 & A6). destruct p as [q'|B f k]; cbn [calm] in A5.
    + subst q'. exists []. rewrite app_nil_r.
      eapply minv_put; try eassumption; cbn [th_doing th_done th_todo]; try reflexivity; auto.
      * unfold unfinished. cbn. rewrite Ed. reflexivity.
      * cbn [mdoing]. auto.
    + specialize (A5 _ (rd_le_refl _) HI). destruct (f (mc_mem c)) as [[s b]|u|] eqn:Eb; cbn [obind].
      * destruct A5 as [-> A5]. exists []. rewrite app_nil_r.
        eapply minv_put; try eassumption; cbn [th_doing th_done th_todo]; try reflexivity; auto.
        -- unfold unfinished. cbn. rewrite Ed. reflexivity.
        -- cbn [mdoing]. split; [exact A4|]. exists q. auto.
      * eapply mracy_excused; eassumption.
      * exact A5.
  - destruct A4 as ([A4 A4'] & A6). destruct (lock o) eqn:L.
    + destruct (mc_writer c) as [j|] eqn:Eo.
      { exists []. rewrite app_nil_r. auto. }
      exists []. rewrite app_nil_r.
      eapply minv_put; try eassumption; cbn [th_doing th_done th_todo]; try reflexivity; auto.
      * intros j Hj. injection Hj as <-. exact Hlt.
      * rewrite Eo. exact Ht.
      * unfold unfinished. cbn. rewrite Ed. reflexivity.
      * cbn [mdoing]. rewrite L. split; [reflexivity|]. split; [exact A4'|]. exists q, (body q). split; [exact A6|].
        destruct A6 as [B1 B2]. rewrite L in B1. split; [split; [exact B1|left; reflexivity]|].
        rewrite (Hw eq_refl), set_out_same. exact (proj1 (B2 _ HG)).
      * intros j a Hj. rewrite Eo. destruct a as [|o2 p2|o2 q2|o2 p2]; cbn [mdoing].
        -- intros [_ E]. split; [congruence|exact E].
        -- intros [[_ E] F]. split; [split; [congruence|exact E]|exact F].
        -- intros [[_ E] F]. split; [split; [congruence|exact E]|exact F].
        -- destruct (lock o2); [intros [E _]; congruence|]. intros (E & _ & F). split; [exact E|]. split; [congruence|exact F].
    + destruct (mc_reader c) as [j|] eqn:Eo.
      { exists []. rewrite app_nil_r. auto. }
      exists []. rewrite app_nil_r.
      eapply minv_put; try eassumption; cbn [th_doing th_done th_todo]; try reflexivity; auto.
      * intros j Hj. injection Hj as <-. exact Hlt.
      * rewrite Eo. exact Ht.
      * unfold unfinished. cbn. rewrite Ed. reflexivity.
      * cbn [mdoing]. rewrite L. split; [reflexivity|]. split; [exact A4|]. exists q. split; [exact A6|].
        destruct A6 as [B1 B2]. rewrite L in B1. split; [exact B1|].
        rewrite (Hr eq_refl), set_out_twice, set_out_same. exact (proj1 (B2 _ HG)).
      * intros j a Hj. rewrite Eo. destruct a as [|o2 p2|o2 q2|o2 p2]; cbn [mdoing].
        -- intros [E _]. split; [exact E|congruence].
        -- intros [[E _] F]. split; [split; [exact E|congruence]|exact F].
        -- intros [[E _] F]. split; [split; [exact E|congruence]|exact F].
        -- destruct (lock o2); [|intros [E _]; congruence]. intros (E & _ & F). split; [exact E|]. split; [congruence|exact F].
  - destruct (lock o) eqn:L.
    + destruct A4 as (A4 & A4' & q0 & q & Hq0 & [Oq St] & Es). pose proof (proj2 Hq0 _ HG) as [_ Fn].
      destruct St as [-> | (n & k & -> & -> & Hn)].
      * inversion Oq as [r' Hp|B f k Hf Hk Hp|k Hk Hp]; subst q.
        -- (* the call returns *)
           cbn [alone] in Es. rewrite Es in Fn. cbn [fine] in Fn.
           exists [Build_entry i o r']. rewrite A4 in *. 
           eapply minv_return; try eassumption; try discriminate.
           ++ reflexivity.
           ++ rewrite A4. exact Ht.
           ++ intros j a Hj. rewrite A4. apply others_wrote; assumption.
        -- destruct Hf as [g Hf]. cbn [alone] in Es. rewrite Hf in Es. rewrite Hf. cbn [cx_out set_out] in Es.
           destruct (g (cx_out (mc_mem c))) as [[h b]|u|]; cbn [obind] in *.
           ++ exists []. rewrite app_nil_r.
              eapply minv_put; try eassumption; cbn [th_doing th_done th_todo]; try reflexivity; auto.
              ** rewrite A4. discriminate.
              ** intro K. rewrite (Hr K). reflexivity.
              ** unfold unfinished. cbn. rewrite Ed. reflexivity.
              ** cbn [mdoing]. rewrite L. split; [exact A4|]. split; [exact A4'|]. exists q0, (k b). split; [exact Hq0|].
                 split; [split; [apply Hk|left; reflexivity]|]. exact Es.
              ** intros j a Hj. eapply others_out; eassumption.
           ++ eapply minside_excused; eassumption.
           ++ rewrite Es in Fn. exact Fn.
        -- unfold load_in. cbn [obind]. rewrite (tag16_load _ (proj1 HI)). exists []. rewrite app_nil_r.
           eapply minv_put; try eassumption; cbn [th_doing th_done th_todo]; try reflexivity; auto.
           ++ unfold unfinished. cbn. rewrite Ed. reflexivity.
           ++ cbn [mdoing]. rewrite L. split; [exact A4|]. split; [exact A4'|]. exists q0, (k 16). split; [exact Hq0|].
              rewrite (load_use (set_out s1 (cx_out (mc_mem c))) _ k (Good_tag _ HG)) in Es.
              split; [|exact Es]. split; [apply Hk|]. right. exists (epoch_in (mc_mem c)), k. destruct HI as [_ HI].
              repeat split; try reflexivity; lia.
      * unfold use_in, use_tag. destruct (N.eqb_spec n (hc_epoch (cx_in (mc_mem c)))) as [En|En].
        -- pose proof (proj1 HI) as T. unfold tag16 in T. rewrite T. cbn [obind]. exists []. rewrite app_nil_r.
           eapply minv_put; try eassumption; cbn [th_doing th_done th_todo]; try reflexivity; auto.
           ++ unfold unfinished. cbn. rewrite Ed. reflexivity.
           ++ cbn [mdoing]. rewrite L. split; [exact A4|]. split; [exact A4'|]. exists q0, (k 16). split; [exact Hq0|].
              split; [|exact Es]. split; [exact Oq|left; reflexivity].
        -- cbn [obind]. eapply mracy_excused; [exact Hinv|]. split; [reflexivity|]. unfold epoch_in in *. lia.
    + destruct A4 as (A4 & A4' & q0 & Hq0 & Ip & Es). pose proof (proj2 Hq0 _ HG) as [_ Fn].
      destruct Ip as [r'|B f k Fi Hk].
      * (* the call returns *)
        cbn [alone] in Es. rewrite Es in Fn. cbn [fine] in Fn.
        exists [Build_entry i o r']. rewrite A4 in *.
        eapply minv_return; try eassumption; try discriminate.
        -- rewrite set_out_twice, set_out_same. reflexivity.
        -- rewrite A4. exact Ht.
        -- intros j a Hj. rewrite A4. apply others_read; assumption.
      * cbn [alone] in Es. pose proof (proj1 Fi (set_out (mc_mem c) (cx_out s1)) (cx_out (mc_mem c))) as K.
        rewrite set_out_twice, set_out_same in K. rewrite K.
        destruct (f (set_out (mc_mem c) (cx_out s1))) as [[w1 b]|u|] eqn:Ef; cbn [obind] in *.
        -- destruct (proj2 Fi _ _ _ Ef) as [Le Tg]. pose proof (inbound_out _ _ _ _ _ Fi Ef) as Eo. cbn [cx_out set_out] in Eo.
           change (epoch_in (set_out (mc_mem c) (cx_out s1))) with (epoch_in (mc_mem c)) in Le.
           exists []. rewrite app_nil_r.
           eapply minv_put; try eassumption; cbn [th_doing th_done th_todo]; try reflexivity; auto.
           ++ destruct HI as [T E]. split; [exact (Tg T)|]. unfold epoch_in in *. cbn [cx_in set_out]. lia.
           ++ rewrite A4. discriminate.
           ++ unfold unfinished. cbn. rewrite Ed. reflexivity.
           ++ cbn [mdoing]. rewrite L. split; [exact A4|]. split; [exact A4'|]. exists q0. split; [exact Hq0|]. split; [apply Hk|].
              rewrite set_out_twice, <- Eo, set_out_same. exact Es.
           ++ intros j a Hj. eapply others_in; try eassumption. reflexivity.
        -- eapply minside_excused; eassumption.
        -- rewrite Es in Fn. exact Fn.
Qed.

Lemma minv_run : forall sched s0 calls c l, minv s0 calls c l ->
  match mrun lock pre body c sched with
  | Done c' => exists l', minv s0 calls c' (l ++ l')
  | Undef u => mexcuse s0 calls u
  | NoFuel => False
  end.
Proof.
  induction sched as [|i sched IH]; intros s0 calls c l H; cbn [mrun].
  - exists []. rewrite app_nil_r. auto.
  - pose proof (minv_step _ _ _ _ i H) as H1. destruct (mstep lock pre body c i) as [c1|u|]; cbn [obind]; auto.
    destruct H1 as [l1 H1]. pose proof (IH _ _ _ _ H1) as H2. destruct (mrun lock pre body c1 sched) as [c2|u|]; auto.
    destruct H2 as [l2 H2]. exists (l1 ++ l2). rewrite app_assoc. exact H2.
Qed.

Lemma minv_start : forall s0 calls, Good s0 -> rd_inv e0 s0 -> Forall (Forall okO) calls ->
  minv s0 calls (mstart s0 calls) [].
Proof.
  intros s0 calls HG HI Hc. exists s0. cbn. split; [reflexivity|]. split; [exact HG|]. split; [exact HI|].
  split; [auto|]. split; [intros _; symmetry; apply set_out_same|]. split; [discriminate|]. split; [discriminate|].
  split; [apply map_length|]. split; [intros e []|].
  intros i t Ht. rewrite nth_error_map in Ht. destruct (nth_error calls i) as [os|] eqn:E; cbn in Ht; [|discriminate].
  injection Ht as <-. cbn. split; [reflexivity|]. split; [reflexivity|]. split; [|split; discriminate].
  eapply (proj1 (Forall_forall _ _) Hc). eapply nth_error_In; eassumption.
Qed.

(* ---- no deadlock ---- *)
Notation run := (mrun lock pre body).
Definition mgets (c : mconfig crypt O Q R) (T : mconfig crypt O Q R -> Prop) : Prop :=
  exists sched, match run c sched with Done c' => T c' | Undef _ => True | NoFuel => True end.

Lemma mrun_app : forall s1 s2 c, run c (s1 ++ s2) = obind (run c s1) (fun c => run c s2).
Proof.
  induction s1 as [|i s1 IH]; intros s2 c; cbn [app mrun]; [reflexivity|].
  destruct (mstep lock pre body c i); cbn [obind]; auto.
Qed.
Lemma mgets_here : forall c (T : mconfig crypt O Q R -> Prop), T c -> mgets c T.
Proof. intros c T H. exists []. exact H. Qed.
Lemma mgets_step : forall c i T, (forall c', mstep lock pre body c i = Done c' -> mgets c' T) -> mgets c T.
Proof.
  intros c i T H. destruct (mstep lock pre body c i) as [c'|u|] eqn:E.
  - destruct (H _ eq_refl) as [sched K]. exists (i :: sched). cbn. rewrite E. exact K.
  - exists [i]. cbn. rewrite E. exact I.
  - exists [i]. cbn. rewrite E. exact I.
Qed.
Lemma mgets_trans : forall c (T T' : mconfig crypt O Q R -> Prop), mgets c T -> (forall c', T c' -> mgets c' T') -> mgets c T'.
Proof.
  intros c T T' [s1 H] K. destruct (run c s1) as [c1|u|] eqn:E.
  - destruct (K _ H) as [s2 H2]. exists (s1 ++ s2). rewrite mrun_app, E. exact H2.
  - exists s1. rewrite E. exact I.
  - exists s1. rewrite E. exact I.
Qed.

Definition drop_w (b : bool) (w : option nat) : option nat := if b then None else w.
Definition drop_r (b : bool) (r : option nat) : option nat := if b then r else None.

Lemma mrun_inside : forall p c i t o, nth_error (mc_threads c) i = Some t -> th_doing t = Inside o p ->
  mgets c (fun c' => mc_writer c' = drop_w (lock o) (mc_writer c) /\ mc_reader c' = drop_r (lock o) (mc_reader c) /\
    exists r, mc_threads c' = set_nth i (Build_thread (th_todo t) Idle (th_done t ++ [r])) (mc_threads c)).
Proof.
  induction p as [r'|B f k IH]; intros c i t o Hi Ed.
  - apply (mgets_step _ i). intros c' E. unfold mstep in E. rewrite Hi, Ed in E.
    destruct (lock o); injection E as <-; apply mgets_here; (split; [reflexivity|]; split; [reflexivity|]; exists r'; reflexivity).
  - apply (mgets_step _ i). intros c' E. unfold mstep in E. rewrite Hi, Ed in E.
    destruct (f (mc_mem c)) as [[s b]|u|]; cbn [obind] in E; try discriminate. injection E as <-.
    eapply mgets_trans; [eapply (IH b); [cbn; eapply nth_set_same; eassumption|reflexivity]|].
    cbn [mc_threads mc_writer mc_reader th_todo th_done]. intros c' (E1 & E2 & r & E3). apply mgets_here.
    split; [exact E1|]. split; [exact E2|]. exists r. rewrite E3. apply set_nth_twice.
Qed.

Lemma mrun_before : forall p c i t o, nth_error (mc_threads c) i = Some t -> th_doing t = Before o p ->
  mgets c (fun c' => mc_writer c' = mc_writer c /\ mc_reader c' = mc_reader c /\
    exists q, mc_threads c' = set_nth i (Build_thread (th_todo t) (Waiting o q) (th_done t)) (mc_threads c)).
Proof.
  induction p as [q'|B f k IH]; intros c i t o Hi Ed.
  - apply (mgets_step _ i). intros c' E. unfold mstep in E. rewrite Hi, Ed in E. injection E as <-.
    apply mgets_here. split; [reflexivity|]. split; [reflexivity|]. exists q'. reflexivity.
  - apply (mgets_step _ i). intros c' E. unfold mstep in E. rewrite Hi, Ed in E.
    destruct (f (mc_mem c)) as [[s b]|u|]; cbn [obind] in E; try discriminate. injection E as <-.
    eapply mgets_trans; [eapply (IH b); [cbn; eapply nth_set_same; eassumption|reflexivity]|].
    cbn [mc_threads mc_writer mc_reader th_todo th_done]. intros c' (E1 & E2 & r & E3). apply mgets_here.
    split; [exact E1|]. split; [exact E2|]. exists r. rewrite E3. apply set_nth_twice.
Qed.

Definition mfree (c : mconfig crypt O Q R) : Prop :=
  mc_writer c = None /\ mc_reader c = None /\
  forall i t, nth_error (mc_threads c) i = Some t -> forall o p, th_doing t <> Inside o p.
Definition mleft (c : mconfig crypt O Q R) : nat := length (concat (map unfinished (mc_threads c))).

Lemma mfree_put : forall c c' i t', mfree c -> mc_writer c' = None -> mc_reader c' = None ->
  mc_threads c' = set_nth i t' (mc_threads c) -> (forall o p, th_doing t' <> Inside o p) -> mfree c'.
Proof.
  intros c c' i t' (_ & _ & F) E1 E1' E2 K. split; [exact E1|]. split; [exact E1'|]. intros j u Hj. rewrite E2 in Hj.
  destruct (Nat.eq_dec i j) as [<-|Hne].
  - destruct (nth_error (mc_threads c) i) as [t|] eqn:E.
    + rewrite (nth_set_same _ _ _ _ _ E) in Hj. injection Hj as <-. exact K.
    + apply nth_error_None in E. assert (nth_error (set_nth i t' (mc_threads c)) i <> None) as X by congruence.
      apply nth_error_Some in X. rewrite length_set_nth in X. lia.
  - rewrite nth_set_other in Hj by exact Hne. exact (F _ _ Hj).
Qed.

Lemma mrun_waiting : forall c i t o q, mfree c -> nth_error (mc_threads c) i = Some t -> th_doing t = Waiting o q ->
  mgets c (fun c' => mfree c' /\ (mleft c' < mleft c)%nat).
Proof.
  intros c i t o q F Hi Ed. apply (mgets_step _ i). intros c1 E. unfold mstep in E.
  rewrite Hi, Ed, (proj1 F), (proj1 (proj2 F)) in E.
  assert (X : mc_threads c1 = set_nth i (Build_thread (th_todo t) (Inside o (body q)) (th_done t)) (mc_threads c) /\
    drop_w (lock o) (mc_writer c1) = None /\ drop_r (lock o) (mc_reader c1) = None).
  { destruct (lock o); injection E as <-; cbn; auto. }
  destruct X as (X1 & X2 & X3).
  eapply mgets_trans; [eapply mrun_inside; [rewrite X1; eapply nth_set_same; eassumption|reflexivity]|].
  cbn [th_todo th_done]. intros c' (E1 & E2 & r & E3). rewrite X1, set_nth_twice in E3. apply mgets_here. split.
  - eapply mfree_put; try eassumption; [congruence|congruence|]. cbn. discriminate.
  - unfold mleft. rewrite E3. pose proof (left_over_set _ _ _ (Build_thread (th_todo t) Idle (th_done t ++ [r])) Hi) as L.
    unfold unfinished at 2 4 in L. rewrite Ed in L. cbn [th_doing th_todo length] in L. lia.
Qed.

Lemma mrun_free : forall c i t, mfree c -> nth_error (mc_threads c) i = Some t -> unfinished t <> [] ->
  mgets c (fun c' => mfree c' /\ (mleft c' < mleft c)%nat).
Proof.
  assert (B : forall c i t o p, mfree c -> nth_error (mc_threads c) i = Some t -> th_doing t = Before o p ->
    mgets c (fun c' => mfree c' /\ (mleft c' < mleft c)%nat)).
  { intros c i t o p F Hi Ed. eapply mgets_trans; [eapply mrun_before; eassumption|]. intros c1 (E1 & E1' & q & E2).
    assert (F1 : mfree c1).
    { eapply mfree_put; [exact F|rewrite E1; exact (proj1 F)|rewrite E1'; exact (proj1 (proj2 F))|exact E2|]. cbn. discriminate. }
    assert (L : mleft c1 = mleft c).
    { unfold mleft. rewrite E2. pose proof (left_over_set _ _ _ (Build_thread (th_todo t) (Waiting o q) (th_done t)) Hi) as L.
      unfold unfinished at 2 4 in L. rewrite Ed in L. cbn [th_doing th_todo length] in L. lia. }
    rewrite <- L. eapply mrun_waiting; [exact F1|rewrite E2; eapply nth_set_same; eassumption|reflexivity]. }
  intros c i t F Hi Hu. destruct (th_doing t) as [|o p|o q|o p] eqn:Ed.
  - destruct (th_todo t) as [|o r] eqn:Et.
    { unfold unfinished in Hu. rewrite Ed, Et in Hu. congruence. }
    apply (mgets_step _ i). intros c1 E. unfold mstep in E. rewrite Hi, Ed, Et in E. injection E as <-.
    match goal with |- mgets ?d _ => assert (L : mleft d = mleft c) end.
    { unfold mleft. cbn [mc_threads].
      pose proof (left_over_set _ _ _ (Build_thread r (Before o (pre o)) (th_done t)) Hi) as L.
      unfold unfinished at 2 4 in L. rewrite Ed, Et in L. cbn [th_doing th_todo length] in L. lia. }
    rewrite <- L. eapply B; [|cbn; eapply nth_set_same; eassumption|reflexivity].
    eapply mfree_put; [exact F|exact (proj1 F)|exact (proj1 (proj2 F))|reflexivity|]. cbn. discriminate.
  - eapply B; eassumption.
  - eapply mrun_waiting; eassumption.
  - exfalso. exact (proj2 (proj2 F) _ _ Hi _ _ Ed).
Qed.

Lemma mrun_all : forall n c, mfree c -> (mleft c <= n)%nat -> mgets c m_finished.
Proof.
  induction n as [|n IH]; intros c F Hn.
  - apply mgets_here. unfold mleft in Hn. unfold m_finished. clear F. induction (mc_threads c) as [|u ts IH]; [constructor|].
    cbn in Hn. rewrite app_length in Hn. constructor; [destruct (unfinished u); [reflexivity|cbn in Hn; lia]|]. apply IH. lia.
  - assert (m_finished c \/ exists i t, nth_error (mc_threads c) i = Some t /\ unfinished t <> []) as [K|(i & t & Hi & Hu)].
    { unfold m_finished. clear F Hn. induction (mc_threads c) as [|u ts IH2]; [left; constructor|].
      destruct (unfinished u) eqn:Eu.
      - destruct IH2 as [J|(i & t & J1 & J2)]; [left; constructor; assumption|]. right. exists (Datatypes.S i), t. auto.
      - right. exists 0%nat, u. split; [reflexivity|]. congruence. }
    + apply mgets_here. exact K.
    + eapply mgets_trans; [eapply mrun_free; eassumption|]. intros c1 [F1 L]. apply IH; [exact F1|lia].
Qed.

(* Whoever is inside is the owner. *)
Definition owned (c : mconfig crypt O Q R) : Prop :=
  (forall j u o p, nth_error (mc_threads c) j = Some u -> th_doing u = Inside o p ->
     if lock o then mc_writer c = Some j else mc_reader c = Some j) /\
  (forall j, mc_writer c = Some j -> exists t o p, nth_error (mc_threads c) j = Some t /\ th_doing t = Inside o p /\ lock o = true) /\
  (forall j, mc_reader c = Some j -> exists t o p, nth_error (mc_threads c) j = Some t /\ th_doing t = Inside o p /\ lock o = false).

Lemma minv_owned : forall s0 calls c l, minv s0 calls c l -> owned c.
Proof.
  intros s0 calls c l Hinv. split; [|split].
  - intros j u o p Hj Ed. destruct Hinv as (s1 & _ & _ & _ & _ & _ & _ & _ & _ & _ & Ht). destruct (Ht _ _ Hj) as (_ & _ & _ & A).
    rewrite Ed in A. cbn [mdoing] in A. destruct (lock o); exact (proj1 A).
  - intros j E. eapply writer_inside; eassumption.
  - intros j E. eapply reader_inside; eassumption.
Qed.

(* One owner leaves. *)
Lemma leave_writer : forall c, owned c -> mgets c (fun c' => owned c' /\ mc_writer c' = None).
Proof.
  intros c H. destruct (mc_writer c) as [i|] eqn:Ew; [|apply mgets_here; auto].
  pose proof H as (H1 & H2 & H3). destruct (H2 _ Ew) as (t & o & p & Hi & Ed & L).
  eapply mgets_trans; [eapply mrun_inside; eassumption|]. intros c1 (E1 & E2 & r & E3). apply mgets_here.
  rewrite L in E1, E2. cbn [drop_w drop_r] in E1, E2. split; [|exact E1]. split; [|split].
  - intros j u o2 p2 Hj E. rewrite E3 in Hj. destruct (Nat.eq_dec i j) as [<-|Hne].
    + rewrite (nth_set_same _ _ _ _ _ Hi) in Hj. injection Hj as <-. discriminate.
    + rewrite nth_set_other in Hj by exact Hne. pose proof (H1 _ _ _ _ Hj E) as K. destruct (lock o2); congruence.
  - intros j E. congruence.
  - intros j E. rewrite E2 in E. destruct (H3 _ E) as (t2 & o2 & p2 & K1 & K2 & K3). exists t2, o2, p2. split; [|auto].
    rewrite E3. destruct (Nat.eq_dec i j) as [<-|Hne]; [|rewrite nth_set_other by exact Hne; exact K1].
    rewrite Hi in K1. injection K1 as <-. congruence.
Qed.
Lemma leave_reader : forall c, owned c -> mc_writer c = None -> mgets c mfree.
Proof.
  intros c H Ew. pose proof H as (H1 & H2 & H3). destruct (mc_reader c) as [i|] eqn:Er.
  - destruct (H3 _ eq_refl) as (t & o & p & Hi & Ed & L).
    eapply mgets_trans; [eapply mrun_inside; eassumption|]. intros c1 (E1 & E2 & r & E3). apply mgets_here.
    rewrite L in E1, E2. cbn [drop_w drop_r] in E1, E2. split; [congruence|]. split; [exact E2|].
    intros j u Hj o2 p2 E. rewrite E3 in Hj. destruct (Nat.eq_dec i j) as [<-|Hne].
    + rewrite (nth_set_same _ _ _ _ _ Hi) in Hj. injection Hj as <-. discriminate.
    + rewrite nth_set_other in Hj by exact Hne. pose proof (H1 _ _ _ _ Hj E) as K. destruct (lock o2); congruence.
  - apply mgets_here. split; [exact Ew|]. split; [exact Er|]. intros j u Hj o p E.
    pose proof (H1 _ _ _ _ Hj E) as K. destruct (lock o); congruence.
Qed.

Lemma mcompletes : forall s0 calls c l, minv s0 calls c l -> mgets c m_finished.
Proof.
  intros s0 calls c l H. eapply mgets_trans; [apply leave_writer, (minv_owned _ _ _ _ H)|]. intros c1 [H1 E1].
  eapply mgets_trans; [apply leave_reader; assumption|]. intros c2 F. eapply mrun_all; [exact F|apply Nat.le_refl].
Qed.

Lemma mixed_linear : forall s0 calls, Good s0 -> rd_inv e0 s0 -> Forall (Forall okO) calls ->
  forall sched1 sched2,
  match run (mstart s0 calls) sched1 with
  | Done c1 =>
    exists l1, m_explains (seq_run step) s0 calls c1 l1 /\
    match run c1 sched2 with
    | Done c2 => exists l2, m_explains (seq_run step) s0 calls c2 (l1 ++ l2)
    | Undef u => mexcuse s0 calls u
    | NoFuel => False
    end /\
    exists sched3,
    match run c1 sched3 with
    | Done c3 => m_finished c3
    | Undef u => mexcuse s0 calls u
    | NoFuel => False
    end
  | Undef u => mexcuse s0 calls u
  | NoFuel => False
  end.
Proof.
  intros s0 calls HG HI Hc sc1 sc2.
  pose proof (minv_run sc1 _ _ _ _ (minv_start _ _ HG HI Hc)) as H1. cbn [app] in H1.
  destruct (run (mstart s0 calls) sc1) as [c1|u|]; auto. destruct H1 as [l1 H1]. exists l1.
  split; [apply minv_explains; exact H1|]. split.
  - pose proof (minv_run sc2 _ _ _ _ H1) as H2. destruct (run c1 sc2) as [c2|u|]; auto.
    destruct H2 as [l2 H2]. exists l2. apply minv_explains. exact H2.
  - destruct (mcompletes _ _ _ _ H1) as [sc3 K]. exists sc3.
    pose proof (minv_run sc3 _ _ _ _ H1) as H2. destruct (run c1 sc3) as [c2|u|]; auto.
Qed.
End Mixed.
