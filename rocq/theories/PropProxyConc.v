(* C67: several threads using one S2AProxy. [qrun w (qstart s calls) sched] runs
   one thread per list of calls, in the order given by [sched]. *)
From Coq Require Import List NArith Bool.
From Verif Require Import Base Aead Hkdf HalfConn Options HsHandler Crypter FrameProt Wire SpecWire Util Context SpecOptions Proxy ProxyRun Conc ConcRun
  Toy ToyProofs ProxyRefuted ProxyConc SpecProxyConc ProxyConcProofs ProxyConcFinal ProxyConcRefuted.
Import ListNotations.
Local Open Scope N_scope.

(* Threads that call only GetBytesForS2A, GetBytesForPeer and
   IsHandshakeFinished: no race, no undefined behaviour; what they see is what
   they would see if the calls were made one after another, in an order that
   respects which call returned before which was made; no deadlock. *)
Theorem C67_locked_methods : forall w a cs ops rs s calls, prims_ok (w_prims w) -> w_text w [] = true -> proxied w a cs ops rs s ->
  Forall (Forall pop_ok) calls ->
  Forall (Forall (fun op => ~ is_protector op /\ ~ is_context op)) calls ->
  forall sched, exists g, qrun w (qstart s calls) sched = Done g /\ ~ racing w g /\
      (exists l, accounts w s calls g l /\
         forall sched' g', qrun w g sched' = Done g' -> exists l', accounts w s calls g' (l ++ l')) /\
      exists sched' g', qrun w g sched' = Done g' /\ settled g'.
Proof. exact Q67b. Qed.
Print Assumptions C67_locked_methods.
Example C67_locked_case : Forall (Forall pop_ok) locked_threads /\
  Forall (Forall (fun op => ~ is_protector op /\ ~ is_context op)) locked_threads.
Proof. exact locked_threads_ok. Qed.

(* All methods. Missing: uses that are not [careful]. The only undefined
   behaviour is that of C38 (a result without state), which the same calls have
   when made one after another. *)
Theorem C67_proxy_threads_partial : forall w a cs ops rs s calls, prims_ok (w_prims w) -> w_text w [] = true -> proxied w a cs ops rs s ->
  Forall (Forall pop_ok) calls -> careful (w_text w) ops calls ->
  forall sched,
  match qrun w (qstart s calls) sched with
  | Done g => ~ racing w g /\
      (exists l, accounts w s calls g l /\
         forall sched' g', qrun w g sched' = Done g' -> exists l', accounts w s calls g' (l ++ l')) /\
      exists sched', match qrun w g sched' with Done g' => settled g' | Undef u => u = UbNullDeref | NoFuel => False end
  | Undef u => u = UbNullDeref /\ exists l i fs, begins calls (l ++ [(i, PProtector fs)]) /\
      prun w s (map snd l ++ [PProtector fs]) = Undef UbNullDeref
  | NoFuel => False
  end.
Proof. exact Q67. Qed.
Print Assumptions C67_proxy_threads_partial.
Example C67_threads_case : prims_ok (w_prims conc_world) /\ w_text conc_world [] = true /\
  proxied conc_world args0 setters0 [] [] (proxy0 args0 setters0) /\
  (Forall (Forall pop_ok) two_threads /\ careful (w_text conc_world) [] two_threads) /\
  exists g, qrun conc_world (qstart (proxy0 args0 setters0) two_threads) a_schedule = Done g /\ settled g /\ as_expected g = true.
Proof. exact (conj toy_ok (conj eq_refl (conj fresh0 (conj two_threads_careful two_threads_run)))). Qed.

(* The accesses used in [racing] are those of the steps: a step changes nothing
   but the locations it is said to write, ... *)
Theorem C67_accesses_written : forall w m op p m' p', advance w m op p = Done (m', p') ->
  forall l, ~ In (l, true) (accesses w op p) -> same_at l m m'.
Proof. exact Q67c. Qed.
Print Assumptions C67_accesses_written.
(* ... and what it does and writes depends only on those it is said to read. *)
Theorem C67_accesses_read : forall w a cs ops1 rs1 ops2 rs2 m1 m2 op p,
  proxied w a cs ops1 rs1 (sh_proxy m1) -> proxied w a cs ops2 rs2 (sh_proxy m2) -> sh_object m1 = sh_object m2 ->
  (forall l, In (l, false) (accesses w op p) -> same_at l m1 m2) ->
  match advance w m1 op p, advance w m2 op p with
  | Done (m1', p1), Done (m2', p2) => p1 = p2 /\ forall l, In (l, true) (accesses w op p) -> same_at l m1' m2'
  | Undef u1, Undef u2 => u1 = u2
  | NoFuel, NoFuel => True
  | _, _ => False
  end.
Proof. exact Q67d. Qed.
Print Assumptions C67_accesses_read.

(* Two threads that call GetS2AContext race, and can both get the one context
   (each in a unique_ptr); one after another, the second gets null. *)
Theorem C67_context_twice_refuted : forall w s s' c, pstep w s PContext = Done (s', RContext (inr (Some c))) ->
  (exists s2, prun w s [PContext; PContext] = Done (s2, [RContext (inr (Some c)); RContext (inr None)])) /\
  (exists sched g, qrun w (qstart s [[PContext]; [PContext]]) sched = Done g /\ settled g /\
     map q_done (g_callers g) = [[RContext (inr (Some c))]; [RContext (inr (Some c))]]) /\
  (exists sched g, qrun w (qstart s [[PContext]; [PContext]]) sched = Done g /\ racing w g).
Proof. exact R67a. Qed.
Print Assumptions C67_context_twice_refuted.
Example C67_context_case : proxied conc_world args0 setters0 [PToPeer (Some (enc_resp good_reply))] [RToPeer (kOk, 9, Some [])] done0 /\
  exists s', pstep conc_world done0 PContext = Done (s', RContext (inr (Some context0))).
Proof. exact (conj (handshake conc_world utf8_texts) (ex_intro _ _ eq_refl)). Qed.

(* CreateFrameProtector races with a GetBytesForPeer that brings a result, and
   can read the freed result. *)
Theorem C67_use_after_free_refuted : forall w a cs ops rs s, proxied w a cs ops rs s -> result_received (w_text w) ops ->
  forall fs s' r, pstep w s (PProtector fs) = Done (s', RProtector r) ->
  forall op, stores (w_text w) op ->
  (exists sched, qrun w (qstart s [[PProtector fs]; [op]]) sched = Undef UbUseAfterFree) /\
  (exists sched g, qrun w (qstart s [[PProtector fs]; [op]]) sched = Done g /\ racing w g).
Proof. exact R67b. Qed.
Print Assumptions C67_use_after_free_refuted.
Example C67_free_case : stores (w_text conc_world) (PToPeer (Some (enc_resp other_reply))) /\
  result_received (w_text conc_world) [PToPeer (Some (enc_resp good_reply))] /\
  exists s' f, pstep conc_world done0 (PProtector []) = Done (s', RProtector (inr f)).
Proof.
  split; [exact other_reply_stores|]. split.
  - exists (enc_resp good_reply), good_reply. eexists. split; [left; reflexivity|]. split; [exact (good_reply_good _ utf8_texts)|reflexivity].
  - destruct (protector_made conc_world done0 result0 toy_ok eq_refl eq_refl eq_refl eq_refl eq_refl eq_refl eq_refl eq_refl) as (f & fs' & E & _). eauto.
Qed.

(* With the same two calls the protector can get the inbound key of one session
   and the outbound key of another. *)
Theorem C67_mixed_keys_refuted : forall w a cs ops rs s0, prims_ok (w_prims w) -> w_text w [] = true -> proxied w a cs ops rs s0 ->
  forall b1 r1 res1 st1 s1 n1 buf1 b2 r2 res2 st2 s2 n2 buf2,
  good_response (w_text w) b1 r1 -> rs_result r1 = Some res1 -> pr_state res1 = Some st1 ->
  pstep w s0 (PToPeer (Some b1)) = Done (s1, RToPeer (kOk, n1, buf1)) ->
  good_response (w_text w) b2 r2 -> rs_result r2 = Some res2 -> pr_state res2 = Some st2 ->
  pstep w s1 (PToPeer (Some b2)) = Done (s2, RToPeer (kOk, n2, buf2)) ->
  forall fs, exists args x fs' sched g, fp_create (w_prims w) (w_lib w) args fs = Done (x, fs') /\
    ca_in_secret (fa_crypt args) = pt_in_key st1 /\ ca_out_secret (fa_crypt args) = pt_out_key st2 /\
    qrun w (qstart s1 [[PProtector fs]; [PToPeer (Some b2)]]) sched = Done g /\ settled g /\
    map q_done (g_callers g) = [[RProtector x]; [RToPeer (kOk, n2, buf2)]].
Proof. exact R67d. Qed.
Print Assumptions C67_mixed_keys_refuted.
Example C67_mixed_case : good_response (w_text conc_world) (enc_resp other_reply) other_reply /\
  rs_result other_reply = Some (result_of (Some other_state) (Some (host_of [97]))) /\ pt_out_key other_state = repeat 44 32 /\
  exists s2, pstep conc_world done0 (PToPeer (Some (enc_resp other_reply))) = Done (s2, RToPeer (kOk, 9, Some [])).
Proof. exact (conj other_reply_good (conj eq_refl (conj eq_refl other_reply_ok))). Qed.

(* Two threads that call CreateFrameProtector race, and both protectors can get
   the one channel. *)
Theorem C67_channel_twice_refuted : forall w a cs ops rs s, prims_ok (w_prims w) -> w_text w [] = true -> proxied w a cs ops rs s ->
  result_received (w_text w) ops -> y_result s <> None -> y_channel s = true ->
  (exists args r fs' sched g, fp_create (w_prims w) (w_lib w) args [] = Done (r, fs') /\ ca_channel (fa_crypt args) = true /\
     qrun w (qstart s [[PProtector []]; [PProtector []]]) sched = Done g /\ settled g /\
     map q_done (g_callers g) = [[RProtector r]; [RProtector r]]) /\
  (exists sched g, qrun w (qstart s [[PProtector []]; [PProtector []]]) sched = Done g /\ racing w g).
Proof. exact R67c. Qed.
Print Assumptions C67_channel_twice_refuted.
Example C67_channel_case : y_result done0 <> None /\ y_channel done0 = true.
Proof. split; [discriminate|reflexivity]. Qed.
