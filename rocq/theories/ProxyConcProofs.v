(* Threads sharing one S2AProxy: careful use is linearizable. *)
From Coq Require Import List NArith Bool PeanoNat Lia.
From Verif Require Import Base Aead AeadProofs Hkdf HalfConn Options HsHandler Crypter FrameProt Wire SpecWire Util Context SpecOptions
  FrameFinal Conc ConcRun ConcLinear Proxy ProxyRun ProxyProofs ProxyFinal ProxyConc SpecProxyConc.
Import ListNotations.
Local Open Scope N_scope.

(* ---- responses ---- *)
Lemma peer_good_is : forall V inp r, peer_good V inp = Some r <-> good_response V (bytes_of inp) r.
Proof.
  intros V inp r. unfold peer_good, good_response, bytes_of. destruct inp as [[|x b]|].
  1, 3: split; [discriminate|intros [K _]; exfalso; apply K; reflexivity].
  destruct (parse_resp V (x :: b)) as [r'|]; [|split; [discriminate|intros (_ & K & _); discriminate]].
  destruct (rs_status r') as [st|] eqn:Es.
  - destruct (N.eqb_spec (pst_code st) 0) as [E|E]; split.
    + intros K. injection K as <-. split; [discriminate|]. split; [reflexivity|]. eauto.
    + intros (_ & K & _). congruence.
    + discriminate.
    + intros (_ & K & st' & K1 & K2). injection K as <-. rewrite Es in K1. injection K1 as <-. contradiction.
  - split; [discriminate|]. intros (_ & K & st & K1 & _). congruence.
Qed.

Lemma responses_cons : forall V op ops, responses V (op :: ops) = responses V [op] ++ responses V ops.
Proof.
  intros V op ops. destruct op as [inp o ser|inp| |fs|]; try reflexivity. destruct inp as [[|x b]|]; try reflexivity. cbn [responses].
  destruct (parse_resp V (x :: b)) as [m|]; [|reflexivity]. destruct (rs_status m) as [st|]; [|reflexivity]. destruct (pst_code st =? 0); reflexivity.
Qed.
Lemma results_cons : forall V op ops, results V (op :: ops) = results V [op] ++ results V ops.
Proof. intros V op ops. unfold results. rewrite responses_cons. apply filter_app. Qed.
Lemma results_peer : forall V inp, length (results V [PToPeer inp]) = (if has_result V inp then 1 else 0)%nat.
Proof.
  intros V inp. unfold results, has_result, peer_good. destruct inp as [[|x b]|]; try reflexivity. cbn [responses].
  destruct (parse_resp V (x :: b)) as [m|]; [|reflexivity]. destruct (rs_status m) as [st|]; [|reflexivity].
  destruct (pst_code st =? 0); [|reflexivity]. cbn [filter]. destruct (some (rs_result m)); reflexivity.
Qed.
Lemma stores_peer : forall V op, stores V op <-> exists inp, op = PToPeer inp /\ has_state V inp = true.
Proof.
  intros V op. split.
  - intros (b & r & res & -> & G & Hr & Hs). exists (Some b). split; [reflexivity|]. unfold has_state.
    change b with (bytes_of (Some b)) in G. apply peer_good_is in G. rewrite G, Hr. destruct (pr_state res); [reflexivity|contradiction].
  - intros (inp & -> & H). unfold has_state in H. destruct (peer_good V inp) as [r|] eqn:G; [|discriminate].
    destruct (rs_result r) as [res|] eqn:Hr; [|discriminate]. apply peer_good_is in G. destruct inp as [b|]; [|destruct G as [G _]; destruct G; reflexivity].
    exists b, r, res. split; [reflexivity|]. split; [exact G|]. split; [exact Hr|]. intros K. rewrite K in H. discriminate.
Qed.
Lemma state_result : forall V inp, has_state V inp = true -> has_result V inp = true.
Proof.
  intros V inp. unfold has_state, has_result. destruct (peer_good V inp) as [r|]; [|discriminate]. destruct (rs_result r); [reflexivity|discriminate].
Qed.

(* What GetBytesForPeer leaves alone. *)
Lemma peer_keeps : forall V s inp s' st, get_bytes_for_peer V s inp = (s', st) ->
  config s' = config s /\ y_channel s' = y_channel s /\ (y_finished s = true -> y_finished s' = true) /\
  (has_state V inp = false -> y_result s' = y_result s /\ y_context s' = y_context s) /\
  (has_result V inp = false -> y_finished s' = y_finished s).
Proof.
  intros V s inp s' st E. apply peer_call_is in E. destruct E as [c Hc Hn|r s1 s2 err G E1 E2]; [auto 10|].
  apply peer_good_is in G. unfold has_state, has_result. rewrite G.
  assert (K : config s1 = config s /\ y_channel s1 = y_channel s /\ y_finished s1 = y_finished s /\ y_result s1 = y_result s /\ y_context s1 = y_context s).
  { subst s1. destruct (rs_local r); cbn; auto 10. }
  destruct K as (K1 & K2 & K3 & K4 & K5). destruct (rs_result r) as [res|].
  - pose proof (take_result_frame _ _ _ _ E2) as (T1 & _ & _ & _ & _ & T6 & T7). split; [congruence|]. split; [congruence|]. split; [auto|].
    split; [|discriminate]. intros Hs. unfold take_result in E2. destruct (pr_state res); [discriminate|]. injection E2 as <- <-. cbn. auto.
  - destruct E2 as [-> _]. split; [exact K1|]. split; [exact K2|]. split; [congruence|]. split; [auto|auto].
Qed.
Lemma s2a_keeps : forall w s inp o ser s' st, order_ok o -> made_opts s -> get_bytes_for_s2a (w_manager w) o ser s inp = (s', st) ->
  config s' = config s /\ y_channel s' = y_channel s /\ y_finished s' = y_finished s /\ y_result s' = y_result s /\ y_context s' = y_context s.
Proof.
  intros w s inp o ser s' st Ho Hm E. apply s2a_call_is in E; [|exact Ho|exact Hm].
  destruct (populate_same (w_manager w) o s) as (P1 & _ & _ & P4 & P5 & P6 & P7). destruct E; cbn; auto 10.
Qed.

(* ---- the methods step by step ---- *)
Definition copied (x : option session_result) (todo : list field) (acc : session_result) : Prop :=
  exists done, fields = done ++ todo /\
    match x with
    | Some r => acc = fold_left (fun a f => copy_field f r a) done session_result_new
    | None => done = [] /\ acc = session_result_new
    end.

Lemma copied_start : forall x, copied x fields session_result_new.
Proof. intros x. exists []. split; [reflexivity|]. destruct x; auto. Qed.
Lemma copied_next : forall r f todo acc, copied (Some r) (f :: todo) acc -> copied (Some r) todo (copy_field f r acc).
Proof.
  intros r f todo acc (done & E & ->). exists (done ++ [f]). split; [rewrite <- app_assoc; exact E|]. rewrite fold_left_app. reflexivity.
Qed.
Lemma copied_all : forall r acc, copied (Some r) [] acc -> acc = r.
Proof. intros r acc (done & E & ->). rewrite app_nil_r in E. rewrite <- E. destruct r; reflexivity. Qed.

Definition outer (op : pop) : Prop := is_protector op \/ is_context op.

(* Where a thread is, and the answer of its call if that is settled. *)
Inductive stage (w : world) (m : shared) : pop -> pc -> option pres -> Prop :=
| SLock : forall op, stage w m op AtLock None
| SBody : forall op, stage w m op AtBody None
| SAnswer : forall op r, stage w m op (AtUnlock (inl r)) (Some r)
| SNoP : forall fs, stage w m (PProtector fs) (AtUnlock (inr false)) (Some (RProtector (inl kFailedPrecondition)))
| SNoC : stage w m PContext (AtUnlock (inr false)) (Some (RContext (inl kFailedPrecondition)))
| SYes : forall op, outer op -> y_finished (sh_proxy m) = true -> stage w m op (AtUnlock (inr true)) None
| SLoad : forall fs f todo acc, y_finished (sh_proxy m) = true -> copied (y_result (sh_proxy m)) (f :: todo) acc ->
    stage w m (PProtector fs) (AtLoad f todo acc) None
| SRead : forall fs f todo acc p, y_finished (sh_proxy m) = true -> copied (y_result (sh_proxy m)) (f :: todo) acc ->
    p = match y_result (sh_proxy m) with Some _ => Some (sh_object m) | None => None end ->
    stage w m (PProtector fs) (AtRead p f todo acc) None
| SLoadCh : forall fs acc, y_finished (sh_proxy m) = true -> y_result (sh_proxy m) = Some acc ->
    stage w m (PProtector fs) (AtLoadChannel acc) None
| SClearCh : forall fs acc ch, y_finished (sh_proxy m) = true -> y_result (sh_proxy m) = Some acc -> ch = y_channel (sh_proxy m) ->
    stage w m (PProtector fs) (AtClearChannel acc ch) None
| SCreate : forall fs acc ch r fs', fp_create (w_prims w) (w_lib w) (protector_args (sh_proxy m) acc ch) fs = Done (r, fs') ->
    stage w m (PProtector fs) (AtCreate acc ch) (Some (RProtector r))
| SLoadCx : y_finished (sh_proxy m) = true -> stage w m PContext AtLoadContext None
| SClearCx : forall c, y_finished (sh_proxy m) = true -> c = y_context (sh_proxy m) -> stage w m PContext (AtClearContext c) None
| SReturn : forall op r, stage w m op (AtReturn r) (Some r).

Lemma stage_keep : forall w m m' op p e, stage w m op p e ->
  y_options (sh_proxy m') = y_options (sh_proxy m) ->
  (y_finished (sh_proxy m) = true -> y_finished (sh_proxy m') = true /\
     (is_protector op -> y_result (sh_proxy m') = y_result (sh_proxy m) /\ sh_object m' = sh_object m /\ y_channel (sh_proxy m') = y_channel (sh_proxy m)) /\
     (is_context op -> y_context (sh_proxy m') = y_context (sh_proxy m))) ->
  stage w m' op p e.
Proof.
  intros w m m' op p e H Ho K. assert (KP : forall fs, is_protector (PProtector fs)) by (intros; eexists; reflexivity).
  destruct H as [ | | | | |op Hou Hf|fs f todo acc Hf Hc|fs f todo acc p Hf Hc Hp|fs acc Hf Hr|fs acc ch Hf Hr Hch|fs acc ch r fs' Hr|Hf|c Hf Hc| ];
    try (constructor; fail); try (destruct (K Hf) as (K1 & K2 & K3); clear K).
  - constructor; assumption.
  - destruct (K2 (KP fs)) as (R1 & R2 & R3). constructor; [exact K1|]. rewrite R1. exact Hc.
  - destruct (K2 (KP fs)) as (R1 & R2 & R3). constructor; [exact K1|rewrite R1; exact Hc|]. rewrite R1, R2. exact Hp.
  - destruct (K2 (KP fs)) as (R1 & R2 & R3). constructor; [exact K1|]. rewrite R1. exact Hr.
  - destruct (K2 (KP fs)) as (R1 & R2 & R3). constructor; [exact K1|rewrite R1; exact Hr|]. rewrite R3. exact Hch.
  - econstructor. unfold protector_args in *. rewrite Ho. exact Hr.
  - constructor. exact K1.
  - constructor; [exact K1|]. rewrite (K3 eq_refl). exact Hc.
Qed.

(* ---- the invariant ---- *)
Definition holds (p : pc) : bool := match p with AtBody | AtUnlock _ => true | _ => false end.
Definition olist {A} (o : option A) : list A := match o with Some a => [a] | None => [] end.
Definition ahead (q : caller) : list pop :=
  match q_now q with Some (op, AtLock) | Some (op, AtBody) => op :: q_todo q | _ => q_todo q end.
Definition sum (l : list nat) : nat := fold_right Nat.add 0%nat l.
Definition count (V : bytes -> bool) (l : list caller) : nat := sum (map (fun q => length (results V (ahead q))) l).

Lemma count_put : forall V l i q q', nth_error l i = Some q ->
  (count V (set_nth i q' l) + length (results V (ahead q)) = count V l + length (results V (ahead q')))%nat.
Proof.
  intros V. unfold count, sum. induction l as [|x l IH]; intros [|i] q q' H; cbn in *; try discriminate.
  - injection H as ->. lia.
  - specialize (IH _ _ q' H). lia.
Qed.
Lemma count_in : forall V l i q, nth_error l i = Some q -> (length (results V (ahead q)) <= count V l)%nat.
Proof.
  intros V. unfold count, sum. induction l as [|x l IH]; intros [|i] q H; cbn in *; try discriminate.
  - injection H as ->. lia.
  - specialize (IH _ _ H). lia.
Qed.

Definition apart (V : bytes -> bool) (calls : list (list pop)) : Prop :=
  forall i j op op', calls_in calls i op -> stores V op -> calls_in calls j op' -> outer op' -> i = j.

Definition few (V : bytes -> bool) (calls : list (list pop)) (s : proxy) (l : list caller) : Prop :=
  (count V l <= if y_finished s then 0 else 1)%nat \/ apart V calls.

Definition of_caller (w : world) (calls : list (list pop)) (m : shared) (l : list (entry pop pres)) (i : nat) (q : caller) : Prop :=
  exists e, match q_now q with None => e = None | Some (op, p) => stage w m op p e end /\
    map e_res (of_thread i l) = q_done q ++ olist e /\
    nth_error calls i = Some (map e_op (of_thread i l) ++ skipn (length (olist e)) (pending q)) /\
    (forall op, In op (pending q) -> calls_in calls i op).

Record inv (w : world) (a : proxy_args) (cs : list setter) (ops : list pop) (rs : list pres) (s : proxy) (calls : list (list pop))
  (g : crowd) (l : list (entry pop pres)) : Prop := {
  i_run : prun w s (map e_op l) = Done (sh_proxy (g_mem g), map e_res l);
  i_len : length (g_callers g) = length calls;
  i_bound : forall e, In e l -> (e_thread e < length calls)%nat;
  i_made : proxied w a cs (ops ++ map e_op l) (rs ++ map e_res l) (sh_proxy (g_mem g));
  i_holds : forall i q op p, nth_error (g_callers g) i = Some q -> q_now q = Some (op, p) -> (holds p = true <-> g_owner g = Some i);
  i_owner : forall i, g_owner g = Some i -> exists q op p, nth_error (g_callers g) i = Some q /\ q_now q = Some (op, p) /\ holds p = true;
  i_caller : forall i q, nth_error (g_callers g) i = Some q -> of_caller w calls (g_mem g) l i q;
  i_few : few (w_text w) calls (sh_proxy (g_mem g)) (g_callers g)
}.

Definition held (q : caller) : bool := match q_now q with Some (_, p) => holds p | None => false end.

Lemma of_thread_one : forall i j op r, of_thread i [{| e_thread := j; e_op := op; e_res := r |}] =
  if Nat.eqb j i then [{| e_thread := j; e_op := op; e_res := r |} : entry pop pres] else [].
Proof. intros. unfold of_thread. cbn. destruct (Nat.eqb j i); reflexivity. Qed.

(* Thread [i] goes from [q] to [q']. *)
Lemma move : forall w a cs ops rs s calls g l i q, inv w a cs ops rs s calls g l -> nth_error (g_callers g) i = Some q ->
  forall m' o' q' x,
  (x = [] /\ sh_proxy m' = sh_proxy (g_mem g) \/
   exists op r, x = [{| e_thread := i; e_op := op; e_res := r |}] /\ pop_ok op /\ pstep w (sh_proxy (g_mem g)) op = Done (sh_proxy m', r)) ->
  (held q' = true <-> o' = Some i) ->
  (o' = g_owner g \/ g_owner g = None /\ o' = Some i \/ g_owner g = Some i /\ o' = None) ->
  (forall e, match q_now q with None => e = None | Some (op, p) => stage w (g_mem g) op p e end ->
     exists e', match q_now q' with None => e' = None | Some (op, p) => stage w m' op p e' end /\
       q_done q ++ olist e ++ map e_res x = q_done q' ++ olist e' /\
       skipn (length (olist e)) (pending q) = map e_op x ++ skipn (length (olist e')) (pending q')) ->
  incl (pending q') (pending q) ->
  (forall j qj op p e, i <> j -> nth_error (g_callers g) j = Some qj -> q_now qj = Some (op, p) ->
     stage w (g_mem g) op p e -> stage w m' op p e) ->
  few (w_text w) calls (sh_proxy m') (set_nth i q' (g_callers g)) ->
  inv w a cs ops rs s calls (put g m' o' i q') (l ++ x).
Proof.
  intros w a cs ops rs s calls g l i q H Hq m' o' q' x Hx Hh Ho Hown Hincl Hother Hfew.
  destruct H as [H1 H2 H3 H4 H5 H6 H7 H8].
  assert (Hi : (i < length calls)%nat). { rewrite <- H2. apply nth_error_Some. congruence. }
  constructor; cbn [put g_mem g_owner g_callers].
  - rewrite !map_app. destruct Hx as [[-> E]|(op & r & -> & _ & E)]; [rewrite !app_nil_r, E; exact H1|]. apply prun_snoc. eauto 6.
  - rewrite length_set_nth. exact H2.
  - intros e He. apply in_app_iff in He. destruct He as [He|He]; [auto|]. destruct Hx as [[-> _]|(op & r & -> & _)]; [destruct He|].
    destruct He as [<-|[]]. exact Hi.
  - rewrite !map_app. destruct Hx as [[-> E]|(op & r & -> & Hok & E)]; [rewrite !app_nil_r, E; exact H4|].
    destruct H4 as (A1 & A2 & s1 & A3 & A4). split; [exact A1|]. split; [rewrite app_assoc; apply Forall_app; split; [exact A2|constructor; auto]|].
    exists s1. split; [exact A3|]. rewrite !app_assoc. apply prun_snoc. eauto 6.
  - intros j qj op p Hj Hn. destruct (Nat.eq_dec i j) as [<-|Hne].
    + rewrite (nth_set_same _ _ _ _ _ Hq) in Hj. injection Hj as <-. unfold held in Hh. rewrite Hn in Hh. exact Hh.
    + rewrite nth_set_other in Hj by exact Hne. rewrite (H5 _ _ _ _ Hj Hn).
      destruct Ho as [->|[[E1 ->]|[E1 ->]]]; [reflexivity|rewrite E1; split; congruence|rewrite E1; split; congruence].
  - intros j Hj. destruct (Nat.eq_dec i j) as [<-|Hne].
    + apply Hh in Hj. unfold held in Hj. destruct (q_now q') as [[op p]|] eqn:En; [|discriminate].
      exists q', op, p. split; [eapply nth_set_same; exact Hq|auto].
    + assert (Hg : g_owner g = Some j). { destruct Ho as [->|[[E1 ->]|[E1 ->]]]; congruence. }
      destruct (H6 _ Hg) as (qj & op & p & A1 & A2 & A3). exists qj, op, p. rewrite nth_set_other by exact Hne. auto.
  - intros j qj Hj. destruct (Nat.eq_dec i j) as [<-|Hne].
    + rewrite (nth_set_same _ _ _ _ _ Hq) in Hj. injection Hj as <-. destruct (H7 _ _ Hq) as (e & S1 & S2 & S3 & S4).
      destruct (Hown e S1) as (e' & T1 & T2 & T3). exists e'. split; [exact T1|]. rewrite of_thread_app, !map_app, S2.
      assert (Ex : of_thread i x = x). { destruct Hx as [[-> _]|(op & r & -> & _)]; [reflexivity|]. rewrite of_thread_one, Nat.eqb_refl. reflexivity. }
      rewrite Ex, <- app_assoc. split; [exact T2|]. split; [rewrite S3, T3, app_assoc; reflexivity|]. auto.
    + rewrite nth_set_other in Hj by exact Hne. destruct (H7 _ _ Hj) as (e & S1 & S2 & S3 & S4). exists e.
      assert (Ex : of_thread j x = []). { destruct Hx as [[-> _]|(op & r & -> & _)]; [reflexivity|]. rewrite of_thread_one.
        destruct (Nat.eqb_spec i j); [contradiction|reflexivity]. }
      rewrite of_thread_app, Ex, app_nil_r. split; [|auto]. destruct (q_now qj) as [[op p]|] eqn:En; [|exact S1]. eapply Hother; eassumption.
  - exact Hfew.
Qed.

(* A step that leaves the proxy alone. *)
Lemma few_same : forall w calls s l i q q', few (w_text w) calls s l -> nth_error l i = Some q -> ahead q' = ahead q ->
  few (w_text w) calls s (set_nth i q' l).
Proof.
  intros w calls s l i q q' [H|H] Hq Ha; [left|right; exact H]. pose proof (count_put (w_text w) l i q q' Hq) as K. rewrite Ha in K. lia.
Qed.
Lemma few_less : forall w calls s l i q q', few (w_text w) calls s l -> nth_error l i = Some q ->
  (length (results (w_text w) (ahead q')) <= length (results (w_text w) (ahead q)))%nat -> few (w_text w) calls s (set_nth i q' l).
Proof.
  intros w calls s l i q q' [H|H] Hq Ha; [left|right; exact H]. pose proof (count_put (w_text w) l i q q' Hq) as K. lia.
Qed.

Section Careful.
Variables (w : world) (a : proxy_args) (cs : list setter) (ops : list pop) (rs : list pres) (s : proxy) (calls : list (list pop)).
Hypothesis HP : prims_ok (w_prims w).
Hypothesis HV : w_text w [] = true.
Hypothesis Hcalls : Forall (Forall pop_ok) calls.
Hypothesis Hone_p : one_thread is_protector calls.
Hypothesis Hone_c : one_thread is_context calls.

Notation I := (inv w a cs ops rs s calls).

Lemma call_ok : forall i op, calls_in calls i op -> pop_ok op.
Proof.
  intros i op (c & Hc & Hi). rewrite Forall_forall in Hcalls. apply nth_error_In in Hc. specialize (Hcalls _ Hc).
  rewrite Forall_forall in Hcalls. auto.
Qed.

(* A crash: the calls so far and one of CreateFrameProtector. *)
Definition crash (l : list (entry pop pres)) : Prop :=
  exists i fs, begins calls (map (fun e => (e_thread e, e_op e)) l ++ [(i, PProtector fs)]) /\
    prun w s (map e_op l ++ [PProtector fs]) = Undef UbNullDeref.

Lemma prun_stuck : forall ops s s1 rs op u, prun w s ops = Done (s1, rs) -> pstep w s1 op = Undef u -> prun w s (ops ++ [op]) = Undef u.
Proof.
  induction ops0 as [|o ops0 IH]; intros s0 s1 rs0 op u E1 E2; cbn [prun app] in *.
  - injection E1 as <- <-. rewrite E2. reflexivity.
  - destruct (pstep w s0 o) as [[s2 r2]|v|]; try discriminate. cbn [obind] in *.
    destruct (prun w s2 ops0) as [[s3 r3]|v|] eqn:E3; try discriminate. cbn [obind] in E1. injection E1 as <- <-.
    rewrite (IH _ _ _ _ _ E3 E2). reflexivity.
Qed.

Lemma filter_map_thread : forall i (l : list (entry pop pres)),
  map snd (filter (fun e => Nat.eqb (fst e) i) (map (fun e => (e_thread e, e_op e)) l)) = map e_op (of_thread i l).
Proof.
  intros i. induction l as [|e l IH]; [reflexivity|]. unfold of_thread in *. cbn [map filter fst]. destruct (Nat.eqb (e_thread e) i); cbn [map snd]; congruence.
Qed.

Lemma crashes : forall g l i q fs f todo acc, I g l -> nth_error (g_callers g) i = Some q -> q_now q = Some (PProtector fs, AtRead None f todo acc) -> crash l.
Proof.
  intros g l i q fs f todo acc H Hq Hn. destruct (i_caller _ _ _ _ _ _ _ _ _ H _ _ Hq) as (e & S1 & S2 & S3 & S4). rewrite Hn in S1.
  inversion S1 as [ | | | | | | |fs0 f0 todo0 acc0 p Hf Hc Hp| | | | | | ]; subst. exists i, fs. split.
  - split.
    + intros e He. apply in_app_iff in He. destruct He as [He|[<-|[]]].
      * apply in_map_iff in He. destruct He as (e0 & <- & He). cbn. eapply i_bound; eassumption.
      * cbn. rewrite <- (i_len _ _ _ _ _ _ _ _ _ H). apply nth_error_Some. congruence.
    + intros j c Hj. rewrite filter_app, map_app, filter_map_thread. cbn [filter fst]. destruct (Nat.eqb_spec i j) as [<-|Hne].
      * rewrite S3 in Hj. injection Hj as <-. unfold pending. rewrite Hn. cbn [olist length skipn map snd]. exists (q_todo q). rewrite <- app_assoc. reflexivity.
      * assert (Hl : (j < length (g_callers g))%nat). { rewrite (i_len _ _ _ _ _ _ _ _ _ H). apply nth_error_Some. congruence. }
        destruct (nth_error (g_callers g) j) as [qj|] eqn:Ej; [|apply nth_error_None in Ej; lia].
        destruct (i_caller _ _ _ _ _ _ _ _ _ H _ _ Ej) as (e & _ & _ & T3 & _). rewrite T3 in Hj. injection Hj as <-. cbn [map]. rewrite app_nil_r. eauto.
  - eapply prun_stuck; [exact (i_run _ _ _ _ _ _ _ _ _ H)|]. cbn [pstep]. unfold create_frame_protector. rewrite Hf. cbn [negb].
    destruct (y_result (sh_proxy (g_mem g))); [discriminate|]. reflexivity.
Qed.

Lemma inl_op : forall m op m' r, body w m op = (m', inl r) -> pstep w (sh_proxy m) op = Done (sh_proxy m', r).
Proof.
  intros m op m' r E. destruct op as [inp o ser|inp| |fs|]; cbn [body pstep] in *.
  - destruct (get_bytes_for_s2a (w_manager w) o ser (sh_proxy m) inp). injection E as <- <-. reflexivity.
  - destruct (get_bytes_for_peer (w_text w) (sh_proxy m) inp). injection E as <- <-. reflexivity.
  - injection E as <- <-. reflexivity.
  - discriminate.
  - discriminate.
Qed.
Lemma inr_op : forall m op m' b, body w m op = (m', inr b) -> m' = m /\ b = y_finished (sh_proxy m) /\ outer op.
Proof.
  intros m op m' b E. destruct op as [inp o ser|inp| |fs|]; cbn [body] in *.
  - destruct (get_bytes_for_s2a (w_manager w) o ser (sh_proxy m) inp). discriminate.
  - destruct (get_bytes_for_peer (w_text w) (sh_proxy m) inp). discriminate.
  - discriminate.
  - injection E as <- <-. split; [reflexivity|]. split; [reflexivity|]. left. eexists. reflexivity.
  - injection E as <- <-. split; [reflexivity|]. split; [reflexivity|]. right. reflexivity.
Qed.

(* What a method under the mutex does to the rest. *)
Lemma body_keeps : forall m op m' r, body w m op = (m', inl r) -> pop_ok op -> made_opts (sh_proxy m) ->
  y_options (sh_proxy m') = y_options (sh_proxy m) /\ y_channel (sh_proxy m') = y_channel (sh_proxy m) /\
  (y_finished (sh_proxy m) = true -> y_finished (sh_proxy m') = true) /\
  (~ stores (w_text w) op -> y_result (sh_proxy m') = y_result (sh_proxy m) /\ y_context (sh_proxy m') = y_context (sh_proxy m) /\ sh_object m' = sh_object m) /\
  (results (w_text w) [op] = [] -> y_finished (sh_proxy m') = y_finished (sh_proxy m) /\ ~ stores (w_text w) op) /\
  (length (results (w_text w) [op]) <= 1)%nat.
Proof.
  intros m op m' r E Hok Hm.
  assert (NS : forall op, (forall inp, op <> PToPeer inp) -> ~ stores (w_text w) op).
  { intros op0 K S. apply stores_peer in S. destruct S as (inp & -> & _). exact (K inp eq_refl). }
  destruct op as [inp o ser|inp| |fs|]; cbn [body] in E; try discriminate.
  - destruct (get_bytes_for_s2a (w_manager w) o ser (sh_proxy m) inp) as [s' st] eqn:Es. injection E as <- <-.
    destruct (s2a_keeps _ _ _ _ _ _ _ Hok Hm Es) as (A1 & A2 & A3 & A4 & A5). cbn [sh_proxy sh_object].
    split; [exact (config_options _ _ A1)|]. split; [exact A2|]. split; [congruence|]. split; [auto|]. split; [|cbn; lia].
    intros _. split; [exact A3|]. apply NS. discriminate.
  - destruct (get_bytes_for_peer (w_text w) (sh_proxy m) inp) as [s' st] eqn:Es. injection E as <- <-.
    destruct (peer_keeps _ _ _ _ _ Es) as (A1 & A2 & A3 & A4 & A5). cbn [sh_proxy sh_object].
    split; [exact (config_options _ _ A1)|]. split; [exact A2|]. split; [exact A3|].
    assert (KS : has_state (w_text w) inp = false <-> ~ stores (w_text w) (PToPeer inp)).
    { split.
      - intros K S. apply stores_peer in S. destruct S as (inp' & E & S). injection E as <-. congruence.
      - intros K. destruct (has_state (w_text w) inp) eqn:F; [|reflexivity]. destruct K. apply stores_peer. eauto. }
    split.
    + intros K. apply KS in K. destruct (A4 K) as [-> ->]. rewrite K. auto.
    + rewrite results_peer. split; [|destruct (has_result (w_text w) inp); lia].
      intros K. assert (R : has_result (w_text w) inp = false).
      { apply (f_equal (@length _)) in K. rewrite results_peer in K. destruct (has_result (w_text w) inp); [discriminate|reflexivity]. }
      split; [auto|]. apply KS. destruct (has_state (w_text w) inp) eqn:F; [|reflexivity]. apply state_result in F. congruence.
  - injection E as <- <-. split; [reflexivity|]. split; [reflexivity|]. split; [auto|]. split; [auto|]. split; [|cbn; lia]. intros _. split; [reflexivity|].
    apply NS. discriminate.
Qed.

Lemma step_inv : forall g l i, I g l ->
  match qstep w g i with
  | Done g' => exists x, I g' (l ++ x)
  | Undef u => u = UbNullDeref /\ crash l
  | NoFuel => False
  end.
Proof.
  intros g l i H. unfold qstep. destruct (nth_error (g_callers g) i) as [q|] eqn:Hq; [|exists []; rewrite app_nil_r; exact H].
  assert (Hf := i_few _ _ _ _ _ _ _ _ _ H). assert (Hh := i_holds _ _ _ _ _ _ _ _ _ H i q).
  assert (Hcall : forall op, In op (pending q) -> calls_in calls i op).
  { destruct (i_caller _ _ _ _ _ _ _ _ _ H _ _ Hq) as (e & _ & _ & _ & S4). exact S4. }
  destruct (proxied_config _ _ _ _ _ _ (i_made _ _ _ _ _ _ _ _ _ H)) as [_ Hm].
  destruct (q_now q) as [[op p]|] eqn:Hn.
  2: { destruct (q_todo q) as [|op rest] eqn:Ht; [exists []; rewrite app_nil_r; exact H|]. exists [].
    apply (move _ _ _ _ _ _ _ _ _ _ _ H Hq); [left; auto| |left; reflexivity| | |auto|].
    - split; [discriminate|]. intros K. destruct (i_owner _ _ _ _ _ _ _ _ _ H _ K) as (q0 & op0 & p0 & B1 & B2 & _). congruence.
    - intros e He. rewrite Hn in He. subst e. exists None. split; [apply SLock|]. cbn. rewrite app_nil_r. unfold pending. rewrite Hn, Ht. auto.
    - unfold pending. cbn. rewrite Hn, Ht. apply incl_refl.
    - eapply few_same; [exact Hf|exact Hq|]. unfold ahead. rewrite Hn, Ht. reflexivity. }
  specialize (Hh op p Hq eq_refl).
  assert (Hop : calls_in calls i op). { apply Hcall. unfold pending. rewrite Hn. left. reflexivity. }
  assert (Hok : pop_ok op) by (eapply call_ok; exact Hop).
  assert (Hpend : forall op' p', pending (at_pc q op' p') = op' :: q_todo q) by reflexivity.
  assert (Hpend0 : pending q = op :: q_todo q). { unfold pending. rewrite Hn. reflexivity. }
  (* a step that only changes the thread *)
  assert (Plain : forall o' p', (holds p' = true <-> o' = Some i) ->
     (o' = g_owner g \/ g_owner g = None /\ o' = Some i \/ g_owner g = Some i /\ o' = None) ->
     ahead (at_pc q op p') = ahead q ->
     (forall e, stage w (g_mem g) op p e -> stage w (g_mem g) op p' e) ->
     exists x, I (put g (g_mem g) o' i (at_pc q op p')) (l ++ x)).
  { intros o' p' B1 B2 B3 B4. exists []. apply (move _ _ _ _ _ _ _ _ _ _ _ H Hq); [left; auto|exact B1|exact B2| | |auto|].
    - intros e He. rewrite Hn in He. exists e. cbn [at_pc q_now q_done map]. split; [auto|]. rewrite Hpend, Hpend0, app_nil_r. auto.
    - rewrite Hpend, Hpend0. apply incl_refl.
    - eapply few_same; [exact Hf|exact Hq|exact B3]. }
  assert (Free : holds p = false -> holds p = false <-> g_owner g <> Some i).
  { intros E. rewrite E in Hh. split; [|auto]. intros _ K. apply Hh in K. discriminate. }
  destruct (i_caller _ _ _ _ _ _ _ _ _ H _ _ Hq) as (e & S1 & S2 & S3 & _). rewrite Hn in S1.
  destruct p as [ | |r|f todo acc|p f todo acc|acc|acc ch|acc ch| |c|r].
  - (* lock *)
    destruct (g_owner g) as [k|] eqn:Eo; [exists []; rewrite app_nil_r; exact H|]. apply Plain.
    + cbn. tauto.
    + auto.
    + unfold ahead. rewrite Hn. reflexivity.
    + intros e0 E0. inversion E0; subst. apply SBody.
  - (* the body *)
    assert (Ho : g_owner g = Some i) by (apply Hh; reflexivity).
    assert (Ea : ahead q = op :: q_todo q). { unfold ahead. rewrite Hn. reflexivity. }
    destruct (body w (g_mem g) op) as [m' [r|b]] eqn:Eb.
    + destruct (body_keeps _ _ _ _ Eb Hok Hm) as (B1 & B2 & B3 & B4 & B5 & B6). apply inl_op in Eb.
      assert (Hfew : few (w_text w) calls (sh_proxy m') (set_nth i (at_pc q op (AtUnlock (inl r))) (g_callers g))).
      { destruct Hf as [Hf|Hf]; [left|right; exact Hf].
        pose proof (count_put (w_text w) (g_callers g) i q (at_pc q op (AtUnlock (inl r))) Hq) as K.
        change (ahead (at_pc q op (AtUnlock (inl r)))) with (q_todo q) in K. rewrite Ea, results_cons, app_length in K.
        destruct (results (w_text w) [op]) as [|y [|]] eqn:Er; cbn [length] in *; [|destruct (y_finished (sh_proxy (g_mem g))), (y_finished (sh_proxy m')); lia|lia].
        destruct (B5 eq_refl) as [-> _]. lia. }
      exists [{| e_thread := i; e_op := op; e_res := r |}].
      apply (move _ _ _ _ _ _ _ _ _ _ _ H Hq); [right; eauto 6| |left; reflexivity| | | |exact Hfew].
      * cbn. rewrite Ho. tauto.
      * intros e0 E0. rewrite Hn in E0. inversion E0; subst. exists (Some r). cbn [at_pc q_now q_done]. split; [apply SAnswer|].
        rewrite Hpend, Hpend0. cbn. auto.
      * rewrite Hpend, Hpend0. apply incl_refl.
      * intros j qj opj pj ej Hne Hj Hnj Sj. eapply stage_keep; [exact Sj|exact B1|]. intros Fin. split; [auto|].
        assert (Hopj : calls_in calls j opj).
        { destruct (i_caller _ _ _ _ _ _ _ _ _ H _ _ Hj) as (e1 & _ & _ & _ & T4). apply T4. unfold pending. rewrite Hnj. left. reflexivity. }
        assert (NS : outer opj -> ~ stores (w_text w) op).
        { intros Houter S. destruct Hf as [Hf|Hf].
          - rewrite Fin in Hf. pose proof (count_in (w_text w) _ _ _ Hq) as K. rewrite Ea, results_cons, app_length in K.
            destruct (results (w_text w) [op]) as [|y z] eqn:Er; [|cbn [length] in K; lia]. destruct (B5 eq_refl) as [_ B7]. exact (B7 S).
          - apply Hne. exact (Hf i j op opj Hop S Hopj Houter). }
        split.
        -- intros Kp. destruct (B4 (NS (or_introl Kp))) as (C1 & C2 & C3). auto.
        -- intros Kc. destruct (B4 (NS (or_intror Kc))) as (C1 & C2 & C3). auto.
    + destruct (inr_op _ _ _ _ Eb) as (-> & Hb & Houter).
      assert (Hless : forall r', few (w_text w) calls (sh_proxy (g_mem g)) (set_nth i (at_pc q op (AtUnlock r')) (g_callers g))).
      { intros r'. eapply few_less; [exact Hf|exact Hq|]. change (ahead (at_pc q op (AtUnlock r'))) with (q_todo q). rewrite Ea, results_cons, app_length. lia. }
      destruct b.
      * exists []. apply (move _ _ _ _ _ _ _ _ _ _ _ H Hq); [left; auto| |left; reflexivity| | |auto|apply Hless].
        -- cbn. rewrite Ho. tauto.
        -- intros e0 E0. rewrite Hn in E0. inversion E0; subst. exists None. cbn [at_pc q_now q_done]. split; [apply SYes; [exact Houter|auto]|].
           rewrite Hpend, Hpend0. cbn. auto.
        -- rewrite Hpend, Hpend0. apply incl_refl.
      * destruct Houter as [[fs ->]| ->].
        -- exists [{| e_thread := i; e_op := PProtector fs; e_res := RProtector (inl kFailedPrecondition) |}].
           apply (move _ _ _ _ _ _ _ _ _ _ _ H Hq); [right| |left; reflexivity| | |auto|apply Hless].
           ++ eexists _, _. split; [reflexivity|]. split; [exact Hok|]. cbn [pstep]. unfold create_frame_protector. rewrite <- Hb. reflexivity.
           ++ cbn. rewrite Ho. tauto.
           ++ intros e0 E0. rewrite Hn in E0. inversion E0; subst. eexists (Some _). cbn [at_pc q_now q_done]. split; [apply SNoP|].
              rewrite Hpend, Hpend0. cbn. auto.
           ++ rewrite Hpend, Hpend0. apply incl_refl.
        -- exists [{| e_thread := i; e_op := PContext; e_res := RContext (inl kFailedPrecondition) |}].
           apply (move _ _ _ _ _ _ _ _ _ _ _ H Hq); [right| |left; reflexivity| | |auto|apply Hless].
           ++ eexists _, _. split; [reflexivity|]. split; [exact Hok|]. cbn [pstep]. unfold get_s2a_context. rewrite <- Hb. reflexivity.
           ++ cbn. rewrite Ho. tauto.
           ++ intros e0 E0. rewrite Hn in E0. inversion E0; subst. eexists (Some _). cbn [at_pc q_now q_done]. split; [apply SNoC|].
              rewrite Hpend, Hpend0. cbn. auto.
           ++ rewrite Hpend, Hpend0. apply incl_refl.
  - (* unlock *)
    assert (Ho : g_owner g = Some i) by (apply Hh; reflexivity). apply Plain.
    + destruct r as [r|[|]]; destruct op; cbn; split; discriminate.
    + auto.
    + unfold ahead. rewrite Hn. destruct r as [r|[|]]; destruct op; reflexivity.
    + intros e0 E0. inversion E0 as [ |op0|op0 r0| | |op0 Hou Hfin| | | | | | | | ]; subst; cbn [after_unlock].
      * apply SReturn.
      * apply SReturn.
      * apply SReturn.
      * destruct Hou as [[fs ->]| ->]; [|apply SLoadCx; exact Hfin]. cbn. apply SLoad; [exact Hfin|apply copied_start].
  - (* load of result_ *)
    cbn [unlocked obind]. apply Plain; [cbn; split; [discriminate|]; intros K; apply Hh in K; discriminate|auto|unfold ahead; rewrite Hn; reflexivity|].
    intros e0 E0. inversion E0; subst. apply SRead; auto.
  - (* read of a member *)
    inversion S1 as [ | | | | | | |fs f0 todo0 acc0 p0 Hfin Hc Hp| | | | | | ]; subst. cbn [unlocked].
    destruct (y_result (sh_proxy (g_mem g))) as [r|] eqn:Er.
    2: { cbn [obind]. split; [reflexivity|]. eapply crashes; [exact H|exact Hq|]. rewrite Hn. reflexivity. }
    rewrite N.eqb_refl. cbn [obind]. apply copied_next in Hc. apply Plain.
    + destruct todo; cbn; (split; [discriminate|]; intros K; apply Hh in K; discriminate).
    + auto.
    + unfold ahead. rewrite Hn. destruct todo; reflexivity.
    + intros e0 E0. inversion E0; subst. destruct todo as [|f' todo]; cbn [load_next].
      * apply SLoadCh; [exact Hfin|]. apply copied_all in Hc. congruence.
      * apply SLoad; [exact Hfin|]. rewrite Er. exact Hc.
  - (* load of the channel *)
    cbn [unlocked obind]. apply Plain; [cbn; split; [discriminate|]; intros K; apply Hh in K; discriminate|auto|unfold ahead; rewrite Hn; reflexivity|].
    intros e0 E0. inversion E0; subst. apply SClearCh; auto.
  - (* the channel is moved *)
    inversion S1 as [ | | | | | | | | |fs acc0 ch0 Hfin Hr Hch| | | | ]; subst. cbn [unlocked obind].
    pose proof (proxied_result _ _ _ _ _ _ HV (i_made _ _ _ _ _ _ _ _ _ H)) as Hro. rewrite Hr in Hro. destruct Hro as [Hi0 Ho0].
    destruct (F32 (w_prims w) (w_lib w) (frame_args (sh_proxy (g_mem g)) acc) fs HP Hi0 Ho0) as (rr & fs' & Ef & _).
    exists [{| e_thread := i; e_op := PProtector fs; e_res := RProtector rr |}].
    apply (move _ _ _ _ _ _ _ _ _ _ _ H Hq); [right| |left; reflexivity| | | |].
    + eexists _, _. split; [reflexivity|]. split; [exact Hok|]. cbn [pstep sh_proxy]. unfold create_frame_protector. rewrite Hfin, Hr. cbn [negb].
      unfold bind. rewrite Ef. reflexivity.
    + cbn. split; [discriminate|]. intros K. apply Hh in K. discriminate.
    + intros e0 E0. rewrite Hn in E0. inversion E0; subst. exists (Some (RProtector rr)). cbn [at_pc q_now q_done]. split; [|rewrite Hpend, Hpend0; cbn; auto].
      eapply SCreate. exact Ef.
    + rewrite Hpend, Hpend0. apply incl_refl.
    + intros j qj opj pj ej Hne Hj Hnj Sj. eapply stage_keep; [exact Sj|reflexivity|]. intros Fin. split; [exact Fin|].
      split; [|reflexivity]. intros Kp. exfalso. apply Hne.
      refine (Hone_p i j (PProtector fs) opj Hop _ _ Kp); [eexists; reflexivity|].
      destruct (i_caller _ _ _ _ _ _ _ _ _ H _ _ Hj) as (e1 & _ & _ & _ & T4). apply T4. unfold pending. rewrite Hnj. left. reflexivity.
    + cbn [sh_proxy]. assert (K : few (w_text w) calls (sh_proxy (g_mem g)) (set_nth i (at_pc q (PProtector fs) (AtCreate acc (y_channel (sh_proxy (g_mem g))))) (g_callers g))).
      { eapply few_same; [exact Hf|exact Hq|]. unfold ahead. rewrite Hn. reflexivity. }
      exact K.
  - (* create *)
    inversion S1 as [ | | | | | | | | | |fs acc0 ch0 r fs' Ef| | | ]; subst. cbn [unlocked]. rewrite Ef. cbn [obind].
    apply Plain; [cbn; split; [discriminate|]; intros K; apply Hh in K; discriminate|auto|unfold ahead; rewrite Hn; reflexivity|].
    intros e0 E0. inversion E0; subst. match goal with K : fp_create _ _ _ _ = Done (?x, _) |- _ => rewrite Ef in K; injection K as <- _ end. apply SReturn.
  - (* load of context_ *)
    cbn [unlocked obind]. apply Plain; [cbn; split; [discriminate|]; intros K; apply Hh in K; discriminate|auto|unfold ahead; rewrite Hn; reflexivity|].
    intros e0 E0. inversion E0; subst. apply SClearCx; auto.
  - (* context_ is moved *)
    inversion S1 as [ | | | | | | | | | | | |c0 Hfin Hc| ]; subst. cbn [unlocked obind].
    exists [{| e_thread := i; e_op := PContext; e_res := RContext (inr (y_context (sh_proxy (g_mem g)))) |}].
    apply (move _ _ _ _ _ _ _ _ _ _ _ H Hq); [right| |left; reflexivity| | | |].
    + eexists _, _. split; [reflexivity|]. split; [exact Hok|]. cbn [pstep sh_proxy]. unfold get_s2a_context. rewrite Hfin. reflexivity.
    + cbn. split; [discriminate|]. intros K. apply Hh in K. discriminate.
    + intros e0 E0. rewrite Hn in E0. inversion E0; subst. eexists (Some _). cbn [at_pc q_now q_done]. split; [apply SReturn|rewrite Hpend, Hpend0; cbn; auto].
    + rewrite Hpend, Hpend0. apply incl_refl.
    + intros j qj opj pj ej Hne Hj Hnj Sj. eapply stage_keep; [exact Sj|reflexivity|]. intros Fin. split; [exact Fin|].
      split; [auto|]. intros Kc. exfalso. apply Hne. refine (Hone_c i j PContext opj Hop eq_refl _ Kc).
      destruct (i_caller _ _ _ _ _ _ _ _ _ H _ _ Hj) as (e1 & _ & _ & _ & T4). apply T4. unfold pending. rewrite Hnj. left. reflexivity.
    + cbn [sh_proxy]. assert (K : few (w_text w) calls (sh_proxy (g_mem g)) (set_nth i (at_pc q PContext (AtReturn (RContext (inr (y_context (sh_proxy (g_mem g))))))) (g_callers g))).
      { eapply few_same; [exact Hf|exact Hq|]. unfold ahead. rewrite Hn. reflexivity. }
      exact K.
  - (* return *)
    exists []. apply (move _ _ _ _ _ _ _ _ _ _ _ H Hq); [left; auto| |left; reflexivity| | |auto|].
    + cbn. split; [discriminate|]. intros K. apply Hh in K. discriminate.
    + intros e0 E0. rewrite Hn in E0. inversion E0; subst. exists None. cbn [q_now q_done]. split; [reflexivity|]. rewrite Hpend0. cbn.
      rewrite !app_nil_r. auto.
    + rewrite Hpend0. unfold pending. cbn. intros x K. right. exact K.
    + eapply few_same; [exact Hf|exact Hq|]. unfold ahead. rewrite Hn. reflexivity.
Qed.

Lemma run_inv : forall sched g l, I g l ->
  match qrun w g sched with
  | Done g' => exists x, I g' (l ++ x)
  | Undef u => u = UbNullDeref /\ exists x, crash (l ++ x)
  | NoFuel => False
  end.
Proof.
  induction sched as [|i sched IH]; intros g l H; cbn [qrun]; [exists []; rewrite app_nil_r; exact H|].
  pose proof (step_inv g l i H) as K. destruct (qstep w g i) as [g'|u|]; cbn [obind]; [|split; [apply K|exists []; rewrite app_nil_r; apply K]|exact K].
  destruct K as [x K]. specialize (IH _ _ K). destruct (qrun w g' sched) as [g2|u|].
  - destruct IH as [y IH]. exists (x ++ y). rewrite app_assoc. exact IH.
  - destruct IH as [E [y IH]]. split; [exact E|]. exists (x ++ y). rewrite app_assoc. exact IH.
  - exact IH.
Qed.

Lemma inv_accounts : forall g l, I g l -> accounts w s calls g l.
Proof.
  intros g l H. split; [apply (i_run _ _ _ _ _ _ _ _ _ H)|]. split; [apply (i_len _ _ _ _ _ _ _ _ _ H)|]. split; [apply (i_bound _ _ _ _ _ _ _ _ _ H)|].
  intros i q Hq. destruct (i_caller _ _ _ _ _ _ _ _ _ H _ _ Hq) as (e & S1 & S2 & S3 & _). exists (olist e).
  split; [|auto]. destruct (q_now q) as [[op p]|]; [destruct e; cbn; lia|subst e; cbn; lia].
Qed.

(* ---- no races ---- *)
Lemma no_race : forall g l, I g l -> ~ racing w g.
Proof.
  intros g l H (i & j & qi & qj & opi & opj & pi & pj & lo & bi & bj & Hne & Hi & Ni & Ai & Hj & Nj & Aj & Hb).
  assert (Oi : calls_in calls i opi /\ exists e, stage w (g_mem g) opi pi e).
  { destruct (i_caller _ _ _ _ _ _ _ _ _ H _ _ Hi) as (e & S1 & _ & _ & S4). rewrite Ni in S1. split; [|eauto]. apply S4. unfold pending. rewrite Ni. left. reflexivity. }
  assert (Oj : calls_in calls j opj /\ exists e, stage w (g_mem g) opj pj e).
  { destruct (i_caller _ _ _ _ _ _ _ _ _ H _ _ Hj) as (e & S1 & _ & _ & S4). rewrite Nj in S1. split; [|eauto]. apply S4. unfold pending. rewrite Nj. left. reflexivity. }
  pose proof (i_holds _ _ _ _ _ _ _ _ _ H _ _ _ _ Hi Ni) as Li. pose proof (i_holds _ _ _ _ _ _ _ _ _ H _ _ _ _ Hj Nj) as Lj.
  (* a body against an access outside of the mutex *)
  assert (Mixed : forall i j qi opi opj pj ej l0 b0 b1, i <> j -> nth_error (g_callers g) i = Some qi -> q_now qi = Some (opi, AtBody) ->
     calls_in calls i opi -> calls_in calls j opj -> stage w (g_mem g) opj pj ej -> pj <> AtBody ->
     In (l0, b0) (accesses w opi AtBody) -> In (l0, b1) (accesses w opj pj) -> False).
  { clear - H Hone_p Hone_c. intros i j qi opi opj pj ej l0 b0 b1 Hne Hi Ni Oi Oj Sj Np Ai Aj.
    assert (K : y_finished (sh_proxy (g_mem g)) = true /\ outer opj /\ (l0 = LResult \/ l0 = LObject \/ l0 = LChannel \/ l0 = LContext)).
    { destruct Sj; try contradiction; cbn [accesses In] in Aj; try contradiction; destruct Aj as [Aj|[]]; injection Aj as <- _;
        (split; [assumption|]; split; [first [left; eexists; reflexivity | right; reflexivity]|auto]). }
    destruct K as (Fin & Houter & Hl). cbn [accesses body_accesses] in Ai.
    assert (St : has_state (w_text w) match opi with PToPeer inp => inp | _ => None end = true /\ exists inp, opi = PToPeer inp).
    { unfold body_accesses in Ai. destruct opi as [inp o ser|inp| |fs|];
        try (exfalso; cbn [In] in Ai; repeat (destruct Ai as [Ai|Ai]; [injection Ai as Ai _; destruct Hl as [Hl|[Hl|[Hl|Hl]]]; congruence|]); exact Ai).
      split; [|eauto]. unfold has_state. destruct (peer_good (w_text w) inp) as [r|]; [|destruct Ai].
      apply in_app_iff in Ai. destruct Ai as [Ai|Ai].
      { exfalso. destruct (some (rs_local r)); [|destruct Ai]. destruct Ai as [Ai|[]]. injection Ai as Ai _. destruct Hl as [Hl|[Hl|[Hl|Hl]]]; congruence. }
      destruct (rs_result r) as [res|]; [|destruct Ai]. destruct Ai as [Ai|Ai]; [exfalso; injection Ai as Ai _; destruct Hl as [Hl|[Hl|[Hl|Hl]]]; congruence|].
      unfold accepted in Ai. destruct (pr_state res); [reflexivity|destruct Ai]. }
    destruct St as [St [inp ->]]. destruct (i_few _ _ _ _ _ _ _ _ _ H) as [Hf|Hf].
    - rewrite Fin in Hf. pose proof (count_in (w_text w) _ _ _ Hi) as K. unfold ahead in K. rewrite Ni, results_cons, app_length, results_peer in K.
      apply state_result in St. rewrite St in K. lia.
    - apply Hne. apply (Hf i j (PToPeer inp) opj Oi); [apply stores_peer; eauto|exact Oj|exact Houter]. }
  destruct Oi as [Oi [ei Si]]. destruct Oj as [Oj [ej Sj]].
  assert (Dec : forall p, p = AtBody \/ p <> AtBody). { intros p. destruct p; auto; right; discriminate. }
  destruct (Dec pi) as [->|Di]; destruct (Dec pj) as [->|Dj].
  - assert (g_owner g = Some i) by (apply Li; reflexivity). assert (g_owner g = Some j) by (apply Lj; reflexivity). congruence.
  - exact (Mixed i j qi opi opj pj ej lo bi bj Hne Hi Ni Oi Oj Sj Dj Ai Aj).
  - exact (Mixed j i qj opj opi pi ei lo bj bi (fun K => Hne (eq_sym K)) Hj Nj Oj Oi Si Di Aj Ai).
  - assert (KP : forall fs fs', opi = PProtector fs -> opj = PProtector fs' -> False).
    { intros fs fs' -> ->. apply Hne. apply (Hone_p i j _ _ Oi (ex_intro _ fs eq_refl) Oj (ex_intro _ fs' eq_refl)). }
    assert (KC : opi = PContext -> opj = PContext -> False). { intros -> ->. apply Hne. exact (Hone_c i j _ _ Oi eq_refl Oj eq_refl). }
    destruct Si; try contradiction; cbn [accesses In] in Ai; try contradiction; destruct Ai as [Ai|[]];
      destruct Sj; try contradiction; cbn [accesses In] in Aj; try contradiction; destruct Aj as [Aj|[]];
      first [exact (KP _ _ eq_refl eq_refl) | exact (KC eq_refl eq_refl) | congruence].
Qed.

(* ---- the calls can be completed ---- *)
Definition rank (p : pc) : nat :=
  match p with
  | AtLock => 30 | AtBody => 29 | AtUnlock _ => 28
  | AtLoad _ todo _ => 10 + 2 * length todo | AtRead _ _ todo _ => 9 + 2 * length todo
  | AtLoadChannel _ => 8 | AtClearChannel _ _ => 7 | AtCreate _ _ => 6
  | AtLoadContext => 5 | AtClearContext _ => 4 | AtReturn _ => 3
  end.
Definition weight (q : caller) : nat :=
  40 * length (q_todo q) + match q_now q with Some (_, p) => rank p | None => 0 end.
Definition weights (l : list caller) : nat := sum (map weight l).

Lemma weights_put : forall l i q q', nth_error l i = Some q -> (weights (set_nth i q' l) + weight q = weights l + weight q')%nat.
Proof.
  unfold weights, sum. induction l as [|x l IH]; intros [|i] q q' H; cbn in *; try discriminate.
  - injection H as ->. lia.
  - specialize (IH _ _ q' H). lia.
Qed.

Lemma progress : forall g l, I g l -> settled g \/
  exists i, match qstep w g i with Done g' => (weights (g_callers g') < weights (g_callers g))%nat | _ => True end.
Proof.
  intros g l H.
  assert (Go : forall i q, nth_error (g_callers g) i = Some q -> pending q <> [] -> (g_owner g = None \/ g_owner g = Some i) ->
    match qstep w g i with Done g' => (weights (g_callers g') < weights (g_callers g))%nat | _ => True end).
  { intros i q Hq Hp Ho. unfold qstep. rewrite Hq. destruct (i_caller _ _ _ _ _ _ _ _ _ H _ _ Hq) as (e & S1 & _).
    destruct (q_now q) as [[op p]|] eqn:Hn.
    2: { unfold pending in Hp. rewrite Hn in Hp. destruct (q_todo q) as [|op rest] eqn:Ht; [contradiction|]. cbn [put g_callers].
      match goal with |- (weights (set_nth i ?q' _) < _)%nat => pose proof (weights_put _ _ _ q' Hq) as K end.
      unfold weight in K. rewrite Hn, Ht in K. cbn [q_todo q_now rank length] in K. lia. }
    assert (Dn : forall m o p', (rank p' < rank p)%nat -> (weights (g_callers (put g m o i (at_pc q op p'))) < weights (g_callers g))%nat).
    { intros m o p' Hr. cbn [put g_callers]. pose proof (weights_put _ _ _ (at_pc q op p') Hq) as K. unfold weight in K. rewrite Hn in K. cbn [at_pc q_todo q_now] in K. lia. }
    destruct p as [ | |r|f todo acc|p f todo acc|acc|acc ch|acc ch| |c|r].
    - pose proof (i_holds _ _ _ _ _ _ _ _ _ H _ _ _ _ Hq Hn) as Hh. destruct Ho as [Ho|Ho]; [|apply Hh in Ho; discriminate].
      rewrite Ho. apply Dn. cbn. lia.
    - destruct (body w (g_mem g) op) as [m' r]. apply Dn. cbn. lia.
    - apply Dn. destruct r as [r|[|]]; destruct op; cbn; lia.
    - cbn [unlocked obind]. apply Dn. cbn. lia.
    - cbn [unlocked]. destruct p as [p|]; [|exact Logic.I]. destruct (y_result (sh_proxy (g_mem g))) as [r|]; [|exact Logic.I].
      destruct (p =? sh_object (g_mem g)); [|exact Logic.I]. cbn [obind]. apply Dn. destruct todo; cbn; lia.
    - cbn [unlocked obind]. apply Dn. cbn. lia.
    - cbn [unlocked obind]. apply Dn. cbn. lia.
    - inversion S1 as [ | | | | | | | | | |fs acc0 ch0 r fs' Ef| | | ]; subst. cbn [unlocked]. rewrite Ef. cbn [obind]. apply Dn. cbn. lia.
    - cbn [unlocked obind]. apply Dn. cbn. lia.
    - cbn [unlocked obind]. apply Dn. cbn. lia.
    - cbn [put g_callers]. match goal with |- (weights (set_nth i ?q' _) < _)%nat => pose proof (weights_put _ _ _ q' Hq) as K end.
      unfold weight in K. rewrite Hn in K. cbn [q_todo q_now rank] in K. lia. }
  destruct (g_owner g) as [k|] eqn:Eo.
  - right. exists k. destruct (i_owner _ _ _ _ _ _ _ _ _ H _ Eo) as (q & op & p & A1 & A2 & A3). apply (Go k q A1); [|auto].
    unfold pending. rewrite A2. discriminate.
  - destruct (Exists_dec (fun q => pending q <> []) (g_callers g)) as [E|E].
    + intros q. destruct (pending q); [right; intros K; apply K; reflexivity|left; discriminate].
    + right. apply Exists_exists in E. destruct E as (q & Hin & Hp). apply In_nth_error in Hin. destruct Hin as [i Hi]. exists i. apply (Go i q Hi Hp). auto.
    + left. unfold settled. apply Forall_forall. intros q Hin. destruct (pending q) eqn:Ep; [reflexivity|]. exfalso. apply E. apply Exists_exists. exists q.
      split; [exact Hin|]. rewrite Ep. discriminate.
Qed.

Lemma complete : forall n g l, (weights (g_callers g) <= n)%nat -> I g l ->
  exists sched, match qrun w g sched with Done g' => settled g' | Undef u => u = UbNullDeref | NoFuel => False end.
Proof.
  induction n as [|n IH]; intros g l Hw H; (destruct (progress g l H) as [K|[i K]]; [exists []; exact K|]);
    pose proof (step_inv g l i H) as Hs; destruct (qstep w g i) as [g'|u|] eqn:E.
  - lia.
  - exists [i]. cbn [qrun]. rewrite E. apply Hs.
  - destruct Hs.
  - destruct Hs as [x Hs]. destruct (IH g' _ ltac:(lia) Hs) as [sched Hr]. exists (i :: sched). cbn [qrun]. rewrite E. exact Hr.
  - exists [i]. cbn [qrun]. rewrite E. apply Hs.
  - destruct Hs.
Qed.

Lemma start_inv : proxied w a cs ops rs s -> few (w_text w) calls s (g_callers (qstart s calls)) -> I (qstart s calls) [].
Proof.
  intros Hp Hf. constructor; cbn [qstart g_mem g_owner g_callers sh_proxy map].
  - reflexivity.
  - apply map_length.
  - intros e [].
  - rewrite !app_nil_r. exact Hp.
  - intros i q op p Hq Hn. apply nth_error_In in Hq. apply in_map_iff in Hq. destruct Hq as (c & <- & _). discriminate.
  - discriminate.
  - intros i q Hq. rewrite nth_error_map in Hq. destruct (nth_error calls i) as [c|] eqn:Hc; [|discriminate]. injection Hq as <-.
    exists None. cbn. split; [reflexivity|]. split; [reflexivity|]. split; [exact Hc|]. intros op Hin. exists c. auto.
  - exact Hf.
Qed.
End Careful.
