(* Any number of threads that call the single-record Unprotect. *)
From Coq Require Import List NArith ZArith Bool PeanoNat Lia ZifyBool ZifyNat ZifyN.
From Verif Require Import Base BaseProofs Aead Hkdf HalfConn SpecAead AeadProofs SpecTls HalfProofs HalfRun HalfRunProofs Options HsHandler Crypter SpecHs SpecRecord
  CrypterProofs CrypterRun CrypterRunProofs FrameProt SpecFrame FrameRun FrameRx FrameProofs FrameSim FrameFinal BufFinal
  Conc ConcRun ConcAlone ConcLinear ConcPair ConcPairProofs SpecKeyChange KeyChange KeyThreads Single SingleProofs.
Import ListNotations.
Local Open Scope N_scope.

(* The crypter is all that such a call changes. *)
Lemma into_same : forall P lib f input out fs f' st out' n fs', fp_unprotect_into P lib f input out fs = Done ((f', st, out', n), fs') ->
  f' = with_crypt f (fp_crypt f').
Proof.
  intros P lib f input out fs f' st out' n fs' E. unfold fp_unprotect_into in E.
  assert (W : f = with_crypt f (fp_crypt f)) by (destruct f; reflexivity).
  unfold bind at 1, lift at 1 in E. destruct (number_bytes_to_unprotect _ _) as [k|u|]; try discriminate.
  destruct (k =? 0); [injection E as <- _; exact W|].
  unfold bind at 1, lift at 1 in E. destruct (compute_record_size _) as [[c|[hdr [vs on]]]|u|]; try discriminate; [injection E as <- _; exact W|].
  unfold bind at 1, lift at 1 in E. destruct (isolate_payload _ _ _) as [[c|[ps q]]|u|]; try discriminate; [injection E as <- _; exact W|].
  unfold bind at 1 in E. destruct (crypt_unprotect _ _ _ _ _ _ _) as [[[[x1 [s w]] o] g]|u|]; try discriminate.
  destruct s; injection E as <- _; reflexivity.
Qed.

Section Team.
Variables (P : prims) (lib : ssl_lib) (al : allocator) (a : create_args) (f : fprot) (calls : list (list (fop * faults))).
Hypothesis HP : prims_ok P.
Hypothesis Hw : exists d, cx_winv P a (fp_crypt f) d.
Hypothesis Hphase : nothing_to_send (fp_crypt f).
Hypothesis Hcalls : Forall (Forall (data_call P a (fp_crypt f))) calls.

Notation Inv := (inv P a (fp_crypt f)).
Notation log := (list (entry (fop * faults) fres)).
Notation call op fs := (call_c P lib al (heap_of f) op fs).

(* One call explained. *)
Lemma call_step : forall op fs x y r m gs, data_call P a (fp_crypt f) (op, fs) -> alone (call op fs) x = Done (y, ((m, r), gs)) ->
  fstep P lib al (with_crypt f x) op fs = Done (with_crypt f y, r) /\ m = heap_of f.
Proof.
  intros op fs x y r m gs (input & buf & E & _) H. cbn [fst] in E. subst op.
  pose proof (call_alone P lib al (with_crypt f x) (FUnprotectInto input buf) fs) as K. change (heap_of (with_crypt f x)) with (heap_of f) in K.
  change (fp_crypt (with_crypt f x)) with x in K. cbn [fstep] in *.
  destruct (fp_unprotect_into P lib (with_crypt f x) input (IoBuf buf) fs) as [[[[[f1 st] out] n] g]|u|] eqn:Eu; cbn [obind] in *.
  - destruct K as (g' & K). pose proof (eq_trans (eq_sym H) K) as Z. injection Z as -> -> -> ->.
    pose proof (into_same _ _ _ _ _ _ _ _ _ _ _ Eu) as S1. rewrite S1. split; reflexivity.
  - pose proof (eq_trans (eq_sym H) K). discriminate.
  - pose proof (eq_trans (eq_sym H) K). discriminate.
Qed.

(* The state of thread [i], given the calls explained so far. *)
Definition thread_ok (i : nat) (t : side) (l : log) : Prop :=
  sd_heap t = heap_of f /\
  match sd_now t with
  | None => map e_res (of_thread i l) = sd_done t /\ nth_error calls i = Some (map e_op (of_thread i l) ++ sd_todo t)
  | Some p =>
    (exists op fs, data_call P a (fp_crypt f) (op, fs) /\ pre_ok Inv p /\ (forall x, Inv x -> alone p x = alone (call op fs) x) /\
       map e_res (of_thread i l) = sd_done t /\ nth_error calls i = Some (map e_op (of_thread i l) ++ (op, fs) :: sd_todo t)) \/
    (exists r gs, post_ok Inv p ((heap_of f, r), gs) /\
       map e_res (of_thread i l) = sd_done t ++ [r] /\ nth_error calls i = Some (map e_op (of_thread i l) ++ sd_todo t))
  end.

Record team_ok (x : crypt) (ts : list side) (l : log) : Prop := {
  tm_inv : Inv x;
  tm_run : frun P lib al f (map e_op l) = Done (with_crypt f x, map e_res l);
  tm_len : length ts = length calls;
  tm_idx : forall e, In e l -> (e_thread e < length calls)%nat;
  tm_thr : forall i t, nth_error ts i = Some t -> thread_ok i t l
}.

(* The thread gets nearer to its end. *)
Definition nearer (t t' : side) : Prop :=
  match sd_now t with
  | None => match sd_todo t with [] => t' = t | _ :: r => sd_todo t' = r end
  | Some (Ret _) => sd_now t' = None /\ sd_todo t' = sd_todo t
  | Some (Step f k) => exists b, sd_now t' = Some (k b) /\ sd_todo t' = sd_todo t
  end.

Lemma of_mine : forall i (l : log) o r, of_thread i (l ++ [Build_entry i o r]) = of_thread i l ++ [Build_entry i o r].
Proof. intros i l o r. rewrite of_thread_app. unfold of_thread at 2. cbn [filter e_thread]. rewrite Nat.eqb_refl. reflexivity. Qed.
Lemma of_other : forall i j (l : log) o r, i <> j -> of_thread j (l ++ [Build_entry i o r]) = of_thread j l.
Proof.
  intros i j l o r H. rewrite of_thread_app. unfold of_thread at 2. cbn [filter e_thread].
  rewrite (proj2 (Nat.eqb_neq i j) H). apply app_nil_r.
Qed.

Lemma other_ok : forall i j t l o r, i <> j -> thread_ok j t l -> thread_ok j t (l ++ [Build_entry i o r]).
Proof. intros i j t l o r H K. unfold thread_ok in *. rewrite (of_other i j l o r H). exact K. Qed.

(* The step adds no call, or adds one. *)
Lemma quiet_move : forall x ts l i t t', team_ok x ts l -> nth_error ts i = Some t -> thread_ok i t' l -> team_ok x (set_nth i t' ts) l.
Proof.
  intros x ts l i t t' [A B C D E] Ei Ht. constructor; auto; [rewrite length_set_nth; exact C|].
  intros j u Ej. destruct (Nat.eq_dec i j) as [<- | N].
  - rewrite (nth_set_same _ _ _ _ _ Ei) in Ej. injection Ej as <-. exact Ht.
  - rewrite nth_set_other in Ej by exact N. auto.
Qed.
Lemma call_move : forall x ts l i t t' y op fs r m gs, team_ok x ts l -> nth_error ts i = Some t -> Inv y ->
  data_call P a (fp_crypt f) (op, fs) -> alone (call op fs) x = Done (y, ((m, r), gs)) ->
  thread_ok i t' (l ++ [Build_entry i (op, fs) r]) -> team_ok y (set_nth i t' ts) (l ++ [Build_entry i (op, fs) r]).
Proof.
  intros x ts l i t t' y op fs r m gs [A B C D E] Ei Iy Hd Ha Ht. destruct (call_step _ _ _ _ _ _ _ Hd Ha) as [Hs _].
  constructor; auto.
  - rewrite !map_app. exact (frun_snoc _ _ _ _ _ _ _ _ _ _ _ B Hs).
  - rewrite length_set_nth; exact C.
  - intros e He. apply in_app_or in He. destruct He as [He|[<- |[]]]; [auto|]. cbn [e_thread]. rewrite <- C.
    apply nth_error_Some. rewrite Ei. discriminate.
  - intros j u Ej. destruct (Nat.eq_dec i j) as [<- | N].
    + rewrite (nth_set_same _ _ _ _ _ Ei) in Ej. injection Ej as <-. exact Ht.
    + rewrite nth_set_other in Ej by exact N. apply other_ok; auto.
Qed.

Lemma step_ok : forall x ts l i t, team_ok x ts l -> nth_error ts i = Some t ->
  exists x' t' l', side_step P lib al x t = Done (x', t') /\ team_ok x' (set_nth i t' ts) (l ++ l') /\ nearer t t'.
Proof.
  intros x ts l i t T Ei. pose proof (tm_thr _ _ _ T _ _ Ei) as [Hh Ht]. unfold side_step, nearer.
  destruct (sd_now t) as [[[[m r] gs]|B g k]|] eqn:En.
  - (* returns *)
    destruct Ht as [(op & fs & Hd & _ & Ha & E1 & E2)|(r' & gs' & Hp & E1 & E2)].
    + specialize (Ha x (tm_inv _ _ _ T)). cbn [alone] in Ha. symmetry in Ha. destruct (call_step _ _ _ _ _ _ _ Hd Ha) as [_ Em].
      do 2 eexists. exists [Build_entry i (op, fs) r]. split; [reflexivity|]. split; [|cbn; auto].
      eapply call_move; [exact T|exact Ei|exact (tm_inv _ _ _ T)|exact Hd|exact Ha|].
      split; [exact Em|]. cbn [sd_now sd_done sd_todo]. rewrite of_mine, !map_app, E1. cbn [map e_res e_op].
      split; [reflexivity|]. rewrite E2, <- app_assoc. reflexivity.
    + cbn [post_ok] in Hp. injection Hp as -> -> ->. do 2 eexists. exists []. rewrite app_nil_r. split; [reflexivity|]. split; [|cbn; auto].
      eapply quiet_move; [exact T|exact Ei|]. split; [reflexivity|]. cbn [sd_now sd_done sd_todo]. auto.
  - destruct Ht as [(op & fs & Hd & Hp & Ha & E1 & E2)|(r' & gs' & Hp & E1 & E2)]; cbn [post_ok pre_ok] in Hp.
    + destruct Hp as [(b & Hf & Hp)|Hp].
      * rewrite (Hf x (tm_inv _ _ _ T)). cbn [obind]. do 2 eexists. exists []. rewrite app_nil_r. split; [reflexivity|].
        split; [|exists b; auto]. eapply quiet_move; [exact T|exact Ei|]. split; [exact Hh|]. cbn [sd_now sd_done sd_todo]. left. exists op, fs.
        split; [exact Hd|]. split; [exact Hp|]. split; [|auto]. intros y Iy. rewrite <- (Ha y Iy). cbn [alone]. rewrite (Hf y Iy). reflexivity.
      * destruct (Hp x (tm_inv _ _ _ T)) as (y & b & [[m r] gs] & Hf & Iy & Hpo). rewrite Hf. cbn [obind].
        assert (Ha1 : alone (call op fs) x = Done (y, ((m, r), gs))).
        { rewrite <- (Ha x (tm_inv _ _ _ T)). cbn [alone]. rewrite Hf. cbn [obind]. eapply post_alone; eassumption. }
        destruct (call_step _ _ _ _ _ _ _ Hd Ha1) as [_ Em]. subst m.
        do 2 eexists. exists [Build_entry i (op, fs) r]. split; [reflexivity|]. split; [|exists b; auto].
        eapply call_move; [exact T|exact Ei|exact Iy|exact Hd|exact Ha1|].
        split; [exact Hh|]. cbn [sd_now sd_done sd_todo]. right. exists r, gs. split; [exact Hpo|].
        rewrite of_mine, !map_app, E1. cbn [map e_res e_op]. split; [reflexivity|]. rewrite E2, <- app_assoc. reflexivity.
    + destruct Hp as (b & Hf & Hp). rewrite (Hf x (tm_inv _ _ _ T)). cbn [obind]. do 2 eexists. exists []. rewrite app_nil_r. split; [reflexivity|].
      split; [|exists b; auto]. eapply quiet_move; [exact T|exact Ei|]. split; [exact Hh|]. cbn [sd_now sd_done sd_todo]. right. exists r', gs'. auto.
  - destruct Ht as [E1 E2]. destruct (sd_todo t) as [|[op fs] rest] eqn:Et.
    + exists x, t, []. rewrite app_nil_r. split; [reflexivity|]. split; [|reflexivity].
      eapply quiet_move; [exact T|exact Ei|]. split; [exact Hh|]. rewrite En, Et. auto.
    + do 2 eexists. exists []. rewrite app_nil_r. split; [reflexivity|]. split; [|reflexivity].
      assert (Hd : data_call P a (fp_crypt f) (op, fs)).
      { apply nth_error_In in E2. rewrite Forall_forall in Hcalls. specialize (Hcalls _ E2). rewrite Forall_forall in Hcalls.
        apply Hcalls. apply in_or_app. right. left. reflexivity. }
      eapply quiet_move; [exact T|exact Ei|]. split; [exact Hh|]. cbn [sd_now sd_done sd_todo]. rewrite Hh. left. exists op, fs.
      split; [exact Hd|]. split; [apply call_pre; assumption|]. auto.
Qed.

Lemma start_ok : team_ok (fp_crypt f) (team_start f calls) [].
Proof.
  constructor.
  - destruct Hw as (d & W). destruct (cw_in _ _ _ _ W) as (din & R & U). exists (cx_in (fp_crypt f)), din.
    split; [destruct (fp_crypt f); reflexivity|auto].
  - cbn. destruct f; reflexivity.
  - apply map_length.
  - intros e [].
  - intros i t Ei. unfold team_start in Ei. rewrite nth_error_map in Ei. destruct (nth_error calls i) eqn:E; [|discriminate].
    injection Ei as <-. split; [reflexivity|]. split; [reflexivity|]. exact E.
Qed.

Lemma run_ok : forall sched x ts l, team_ok x ts l -> exists x' ts' l', team_run P lib al x ts sched = Done (x', ts') /\ team_ok x' ts' (l ++ l').
Proof.
  induction sched as [|i sched IH]; intros x ts l T.
  - exists x, ts, []. rewrite app_nil_r. auto.
  - cbn [team_run]. unfold team_step. destruct (nth_error ts i) as [t|] eqn:Ei; cbn [obind]; [|auto].
    destruct (step_ok _ _ _ _ _ T Ei) as (x1 & t1 & l1 & -> & T1 & _). cbn [obind].
    destruct (IH _ _ _ T1) as (x2 & ts2 & l2 & E2 & T2). rewrite <- app_assoc in T2. eauto.
Qed.

Lemma run_app : forall s1 s2 x ts x1 ts1, team_run P lib al x ts s1 = Done (x1, ts1) ->
  team_run P lib al x ts (s1 ++ s2) = team_run P lib al x1 ts1 s2.
Proof.
  induction s1 as [|i s1 IH]; intros s2 x ts x1 ts1 E; cbn [team_run app] in *; [injection E as -> ->; reflexivity|].
  destruct (team_step P lib al x ts i) as [[y us]|u|]; cbn [obind] in *; try discriminate. apply IH. exact E.
Qed.

(* A thread can come to its end. *)
Definition ends (i : nat) (ts ts' : list side) : Prop :=
  length ts' = length ts /\ (exists t, nth_error ts' i = Some t /\ side_end t) /\ forall j, j <> i -> nth_error ts' j = nth_error ts j.

Lemma ends_set : forall i t ts ts', nth_error ts i <> None -> ends i (set_nth i t ts) ts' -> ends i ts ts'.
Proof.
  intros i t ts ts' _ (A & B & C). rewrite length_set_nth in A. split; [exact A|]. split; [exact B|].
  intros j N. rewrite (C j N). apply nth_set_other. congruence.
Qed.

Lemma one_end : forall todo i x ts l t, team_ok x ts l -> nth_error ts i = Some t -> sd_todo t = todo ->
  exists sched x' ts' l', team_run P lib al x ts sched = Done (x', ts') /\ team_ok x' ts' (l ++ l') /\ ends i ts ts'.
Proof.
  induction todo as [|c todo IHt]; intros i x ts l t T Ei Et.
  - assert (Hn : forall x ts l t, team_ok x ts l -> nth_error ts i = Some t -> sd_todo t = [] -> sd_now t = None ->
      exists sched x' ts' l', team_run P lib al x ts sched = Done (x', ts') /\ team_ok x' ts' (l ++ l') /\ ends i ts ts').
    { intros y us k u Tu Eu Eu1 Eu2. exists [], y, us, []. rewrite app_nil_r. split; [reflexivity|]. split; [exact Tu|].
      split; [reflexivity|]. split; [exists u; split; [exact Eu|split; assumption]|]. reflexivity. }
    destruct (sd_now t) as [p|] eqn:En; [|eapply Hn; eassumption].
    revert x ts l t T Ei Et En. induction p as [[[m r] gs]|B g k IHp]; intros x ts l t T Ei Et En;
      destruct (step_ok _ _ _ _ _ T Ei) as (x1 & t1 & l1 & E1 & T1 & N1); unfold nearer in N1; rewrite En in N1.
    + destruct N1 as [N1 N2]. rewrite Et in N2.
      destruct (Hn x1 _ _ t1 T1 (nth_set_same _ _ _ _ _ Ei) N2 N1) as (s & x2 & ts2 & l2 & E2 & T2 & D2).
      exists (i :: s), x2, ts2, (l1 ++ l2). cbn [team_run]. unfold team_step. rewrite Ei, E1. cbn [obind]. split; [exact E2|].
      rewrite app_assoc. split; [exact T2|]. eapply ends_set; [|exact D2]. congruence.
    + destruct N1 as (b & N1 & N2). rewrite Et in N2.
      destruct (IHp b x1 _ _ t1 T1 (nth_set_same _ _ _ _ _ Ei) N2 N1) as (s & x2 & ts2 & l2 & E2 & T2 & D2).
      exists (i :: s), x2, ts2, (l1 ++ l2). cbn [team_run]. unfold team_step. rewrite Ei, E1. cbn [obind]. split; [exact E2|].
      rewrite app_assoc. split; [exact T2|]. eapply ends_set; [|exact D2]. congruence.
  - assert (Hn : forall x ts l t, team_ok x ts l -> nth_error ts i = Some t -> sd_todo t = c :: todo -> sd_now t = None ->
      exists sched x' ts' l', team_run P lib al x ts sched = Done (x', ts') /\ team_ok x' ts' (l ++ l') /\ ends i ts ts').
    { intros y us k u Tu Eu Eu1 Eu2. destruct (step_ok _ _ _ _ _ Tu Eu) as (x1 & t1 & l1 & E1 & T1 & N1). unfold nearer in N1. rewrite Eu2, Eu1 in N1.
      destruct (IHt i x1 _ _ t1 T1 (nth_set_same _ _ _ _ _ Eu) N1) as (s & x2 & ts2 & l2 & E2 & T2 & D2).
      exists (i :: s), x2, ts2, (l1 ++ l2). cbn [team_run]. unfold team_step. rewrite Eu, E1. cbn [obind]. split; [exact E2|].
      rewrite app_assoc. split; [exact T2|]. eapply ends_set; [|exact D2]. congruence. }
    destruct (sd_now t) as [p|] eqn:En; [|eapply Hn; eassumption].
    revert x ts l t T Ei Et En. induction p as [[[m r] gs]|B g k IHp]; intros x ts l t T Ei Et En;
      destruct (step_ok _ _ _ _ _ T Ei) as (x1 & t1 & l1 & E1 & T1 & N1); unfold nearer in N1; rewrite En in N1.
    + destruct N1 as [N1 N2]. rewrite Et in N2.
      destruct (Hn x1 _ _ t1 T1 (nth_set_same _ _ _ _ _ Ei) N2 N1) as (s & x2 & ts2 & l2 & E2 & T2 & D2).
      exists (i :: s), x2, ts2, (l1 ++ l2). cbn [team_run]. unfold team_step. rewrite Ei, E1. cbn [obind]. split; [exact E2|].
      rewrite app_assoc. split; [exact T2|]. eapply ends_set; [|exact D2]. congruence.
    + destruct N1 as (b & N1 & N2). rewrite Et in N2.
      destruct (IHp b x1 _ _ t1 T1 (nth_set_same _ _ _ _ _ Ei) N2 N1) as (s & x2 & ts2 & l2 & E2 & T2 & D2).
      exists (i :: s), x2, ts2, (l1 ++ l2). cbn [team_run]. unfold team_step. rewrite Ei, E1. cbn [obind]. split; [exact E2|].
      rewrite app_assoc. split; [exact T2|]. eapply ends_set; [|exact D2]. congruence.
Qed.

(* All threads can. *)
Lemma all_end : forall x ts l, team_ok x ts l -> exists sched x' ts', team_run P lib al x ts sched = Done (x', ts') /\ Forall side_end ts'.
Proof.
  intros x ts l T.
  assert (K : forall n, (n <= length ts)%nat -> exists sched x' ts' l', team_run P lib al x ts sched = Done (x', ts') /\ team_ok x' ts' (l ++ l') /\
    length ts' = length ts /\ forall j t, (j < n)%nat -> nth_error ts' j = Some t -> side_end t).
  { induction n as [|n IH]; intros Hn.
    - exists [], x, ts, []. rewrite app_nil_r. split; [reflexivity|]. split; [exact T|]. split; [reflexivity|]. intros j t Hj. lia.
    - destruct IH as (s & x1 & ts1 & l1 & E1 & T1 & L1 & F1); [lia|].
      destruct (nth_error ts1 n) as [t|] eqn:En; [|apply nth_error_None in En; lia].
      destruct (one_end _ _ _ _ _ _ T1 En eq_refl) as (s2 & x2 & ts2 & l2 & E2 & T2 & L2 & (u & Eu & Hu) & O2).
      exists (s ++ s2), x2, ts2, (l1 ++ l2). split; [rewrite (run_app _ _ _ _ _ _ E1); exact E2|]. rewrite app_assoc. split; [exact T2|].
      split; [congruence|]. intros j v Hj Ej. destruct (Nat.eq_dec j n) as [-> | N].
      + rewrite Eu in Ej. injection Ej as <-. exact Hu.
      + rewrite (O2 _ N) in Ej. apply (F1 j v); [lia|exact Ej]. }
  destruct (K _ (le_n _)) as (s & x1 & ts1 & l1 & E1 & _ & L1 & F1). exists s, x1, ts1. split; [exact E1|].
  apply Forall_forall. intros t Ht. apply In_nth_error in Ht. destruct Ht as (j & Ej). apply (F1 j t); [|exact Ej].
  rewrite <- L1. apply nth_error_Some. congruence.
Qed.

Lemma ok_explained : forall x ts l, team_ok x ts l -> team_explained P lib al f calls x ts l.
Proof.
  intros x ts l [A B C D E]. exists (with_crypt f x). split; [exact B|]. split; [reflexivity|]. split; [exact C|]. split; [exact D|].
  intros i t Ei. destruct (E i t Ei) as [_ Ht]. destruct (sd_now t) as [p|].
  - destruct Ht as [(op & fs & _ & _ & _ & E1 & E2)|(r & gs & _ & E1 & E2)].
    + exists [], [(op, fs)]. rewrite app_nil_r. split; [exact E1|]. split; [exact E2|reflexivity].
    + exists [r], []. split; [exact E1|]. split; [exact E2|reflexivity].
  - destruct Ht as [E1 E2]. exists [], []. rewrite app_nil_r. auto.
Qed.
End Team.

Theorem singles_explained : forall P lib al a ops rs f calls, protector P lib al a ops rs f -> nothing_to_send (fp_crypt f) ->
  Forall (Forall (data_call P (fa_crypt a) (fp_crypt f))) calls ->
  forall sched1 sched2, exists x1 ts1 x2 ts2 l1 l2,
    team_run P lib al (fp_crypt f) (team_start f calls) sched1 = Done (x1, ts1) /\
    team_run P lib al x1 ts1 sched2 = Done (x2, ts2) /\
    team_explained P lib al f calls x1 ts1 l1 /\ team_explained P lib al f calls x2 ts2 (l1 ++ l2) /\
    exists sched3 x3 ts3, team_run P lib al x1 ts1 sched3 = Done (x3, ts3) /\ Forall side_end ts3.
Proof.
  intros P lib al a ops rs f calls Hp Hph Hc sched1 sched2. pose proof Hp as (HP & _).
  destruct (protector_winv _ _ _ _ _ _ _ Hp) as (d & _ & W & _).
  assert (Hw : exists d, cx_winv P (c_args a) (fp_crypt f) d) by eauto.
  pose proof (start_ok P lib al (c_args a) f calls Hw Hph Hc) as T0.
  destruct (run_ok P lib al (c_args a) f calls HP Hph Hc sched1 _ _ _ T0) as (x1 & ts1 & l1 & E1 & T1). cbn [app] in T1.
  destruct (run_ok P lib al (c_args a) f calls HP Hph Hc sched2 _ _ _ T1) as (x2 & ts2 & l2 & E2 & T2).
  exists x1, ts1, x2, ts2, l1, l2. split; [exact E1|]. split; [exact E2|].
  split; [eapply ok_explained; exact T1|]. split; [eapply ok_explained; exact T2|].
  exact (all_end P lib al (c_args a) f calls HP Hph Hc _ _ _ T1).
Qed.
