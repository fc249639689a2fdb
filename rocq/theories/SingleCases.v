(* Cases for PropSingle.v. *)
From Coq Require Import List NArith ZArith Bool PeanoNat Lia ZifyBool ZifyNat ZifyN.
From Verif Require Import Base BaseProofs Aead Hkdf HalfConn SpecAead AeadProofs SpecTls HkdfProofs HalfProofs Options HsHandler
  Crypter SpecHs SpecRecord SpecRx SpecRxProofs CrypterProofs CrypterRun CrypterRunProofs CrypterLemmas FrameProt SpecFrame FrameRun FrameSim FrameFinal
  FrameRef Toy ToyProofs CrypterRefuted RecordExamples FrameExamples Conc ConcRun ConcLinear ConcPair EveryCases SpecKeyChange KeyCases Single.
Import ListNotations.
Local Open Scope N_scope.

(* ---- threads whose data are application data ---- *)
Definition one_record (i : N) (c : bytes) : bytes :=
  framed (dir_seal shown {| d_suite := ca_suite (fa_crypt (fargs S0)); d_secret := ca_in_secret (fa_crypt (fargs S0)); d_seq := i; d_broken := false |}
            (tls_header (lenN (inner ty_application_data c 0) + 16)) (inner ty_application_data c 0)).
Definition into (data : bytes) : fop * faults := (FUnprotectInto [IoBuf data] (zeros 20), []).
Definition s_calls : list (list (fop * faults)) := [[into (one_record 3 [5])]; [into (one_record 4 [6; 7]); into (one_record 4 [8])]].
Definition s_start : bool :=
  match fp_create shown OpenSSL (fargs S0) [] with
  | Done (inr f, _) => (hc_epoch (cx_in (fp_crypt f)) =? 0) && match cx_phase (fp_crypt f) with RECEIVING => false | _ => true end
  | _ => false
  end.

Lemma one_no_control : forall x i c, hc_epoch (cx_in x) = 0 -> lenN c < 60000 -> no_control shown (fa_crypt (fargs S0)) x (one_record i c).
Proof.
  intros x i c E Lc p sq msg T Hp. rewrite E. change (N.to_nat 0) with O. cbn [nth_secret].
  set (s := ca_suite (fa_crypt (fargs S0))) in *. set (S := ca_in_secret (fa_crypt (fargs S0))) in *.
  assert (Hb : bytes_ok (traffic_iv shown s S)) by (apply bytes_check; vm_compute; reflexivity).
  assert (Hl : lenN (traffic_iv shown s S) = 12) by (vm_compute; reflexivity).
  set (p1 := dir_seal shown {| d_suite := s; d_secret := S; d_seq := i; d_broken := false |}
             (tls_header (lenN (inner ty_application_data c 0) + 16)) (inner ty_application_data c 0)).
  assert (L : lenN p1 = lenN (inner ty_application_data c 0) + 16) by (apply lenN_dir_seal; exact shown_ok).
  assert (Eq : one_record i c = concat (map framed [p1])) by (cbn [map concat]; rewrite app_nil_r; reflexivity).
  rewrite Eq in Hp. apply records_in in Hp.
  2:{ apply Forall_cons; [|apply Forall_nil]. rewrite L. unfold inner. rewrite !lenN_app. change (lenN [ty_application_data]) with 1. change (lenN (zeros 0)) with 0. lia. }
  clear Eq L E. clearbody s S. destruct Hp as [<- | []].
  destruct T as [(content & pad & ->)|(level & rest & pad & ->)];
    [refine (shown_differs s S i sq c ty_handshake content pad _ _ Hb Hl)|refine (shown_differs s S i sq c ty_alert _ pad _ _ Hb Hl)]; discriminate.
Qed.

Lemma s_data : forall x i c, hc_epoch (cx_in x) = 0 -> lenN c < 60000 -> forallb (fun b => b <? 256) (one_record i c) = true ->
  (lenN (one_record i c) <? 70000) = true -> data_call shown (fa_crypt (fargs S0)) x (into (one_record i c)).
Proof.
  intros x i c E L B Z. exists [IoBuf (one_record i c)], (zeros 20).
  assert (Ei : iov_concat [IoBuf (one_record i c)] = one_record i c) by apply app_nil_r.
  split; [reflexivity|]. split.
  { cbn [fst into fop_ok]. rewrite Ei. split; [repeat constructor|]. split; [apply bytes_check; exact B|].
    cbn [sum_lens iov_len]. unfold two64. lia. }
  split.
  { constructor; [|constructor]. eexists. split; [reflexivity|]. unfold one_record, framed. intros K. apply (f_equal lenN) in K.
    rewrite lenN_app, lenN_tls_header in K. change (lenN []) with 0 in K. lia. }
  rewrite Ei. apply one_no_control; assumption.
Qed.

Lemma case97 : exists f, protector shown OpenSSL toy_al (fargs S0) [] [] f /\ nothing_to_send (fp_crypt f) /\
  Forall (Forall (data_call shown (fa_crypt (fargs S0)) (fp_crypt f))) s_calls.
Proof.
  assert (H : s_start = true) by (vm_compute; reflexivity). unfold s_start in H.
  destruct (fp_create shown OpenSSL (fargs S0) []) as [[[c|f] fs]|u|] eqn:Ec; try discriminate. apply andb_prop in H. destruct H as [H H2]. apply N.eqb_eq in H.
  exists f. split. { split; [exact shown_ok|]. split; [exact toy_al_ok|]. split; [reflexivity|]. split; [reflexivity|]. split; [constructor|].
           exists f, [], fs. split; [exact Ec|reflexivity]. }
  split; [unfold nothing_to_send; destruct (cx_phase (fp_crypt f)); [discriminate|discriminate H2|discriminate]|].
  clear Ec H2. repeat first [apply Forall_nil|apply Forall_cons]; (apply s_data; [exact H|reflexivity|vm_compute; reflexivity|vm_compute; reflexivity]).
Qed.

(* ---- a thread reads past close_notify ---- *)
Definition t_dir : dir := f_in (fargs S0).
Definition t_record (d : dir) (ty : N) (c : bytes) : bytes := tls_record toy d ty c 0.
Definition c_close : fop * faults := into (t_record t_dir ty_alert [1; 0]).
Definition c_data : fop * faults := into (t_record (dir_next t_dir) ty_application_data [1; 2; 3]).
Definition past_sched : list nat := repeat 1%nat 10 ++ repeat 0%nat 30 ++ repeat 1%nat 20.
Definition into_ok (r : fres) : bool := match r with FUnprotectedInto st _ n => is_ok st && (n =? 3) | _ => false end.
Definition not_ok (r : fres) : bool := match r with FUnprotectedInto st _ _ => negb (is_ok st) | _ => false end.
Definition ended (t : side) : bool := match sd_now t, sd_todo t with None, [] => true | _, _ => false end.

Definition past_check (f : fprot) : bool :=
  match cx_phase (fp_crypt f) with RECEIVING => false | _ => true end &&
  match team_run toy OpenSSL toy_al (fp_crypt f) (team_start f [[c_close]; [c_data]]) past_sched with
  | Done (x, [t0; t1]) => ended t0 && ended t1 && cx_close x &&
      match sd_done t0, sd_done t1 with [r0], [r1] => not_ok r0 && into_ok r1 | _, _ => false end
  | _ => false
  end &&
  match frun toy OpenSSL toy_al f [c_close; c_data] with Done (_, [_; r]) => not_ok r | _ => false end &&
  match frun toy OpenSSL toy_al f [c_data; c_close] with Done (_, [r; _]) => not_ok r | _ => false end.

Lemma fresh_check : forall chk, match fp_create toy OpenSSL (fargs S0) [] with Done (inr f, _) => chk f | _ => false end = true ->
  exists f, protector toy OpenSSL toy_al (fargs S0) [] [] f /\ chk f = true.
Proof.
  intros chk H. destruct (fp_create toy OpenSSL (fargs S0) []) as [[[c|f] fs]|u|] eqn:Ec; try discriminate.
  exists f. split; [|exact H]. split; [exact toy_ok|]. split; [exact toy_al_ok|]. split; [reflexivity|]. split; [reflexivity|]. split; [constructor|].
  exists f, [], fs. split; [exact Ec|reflexivity].
Qed.

(* Two threads with one call each: two orders. *)
Lemma two_orders : forall (O R : Type) (l : list (entry O R)) c0 c1 rs0 rs1, (forall e, In e l -> (e_thread e < 2)%nat) ->
  map e_op (of_thread 0 l) = [c0] -> map e_op (of_thread 1 l) = [c1] -> map e_res (of_thread 0 l) = rs0 -> map e_res (of_thread 1 l) = rs1 ->
  exists r0 r1, rs0 = [r0] /\ rs1 = [r1] /\ ((map e_op l = [c0; c1] /\ map e_res l = [r0; r1]) \/ (map e_op l = [c1; c0] /\ map e_res l = [r1; r0])).
Proof.
  intros O R l c0 c1 rs0 rs1 Hi E0 E1 F0 F1.
  assert (K : forall e, In e l -> e_thread e = 0%nat \/ e_thread e = 1%nat) by (intros e He; specialize (Hi e He); lia). clear Hi.
  assert (Nil : forall k : list (entry O R), (forall e, In e k -> e_thread e = 0%nat \/ e_thread e = 1%nat) -> of_thread 0 k = [] -> of_thread 1 k = [] -> k = []).
  { intros [|e k] H A B; [reflexivity|]. unfold of_thread in A, B. cbn [filter] in A, B.
    destruct (H e (or_introl eq_refl)) as [Z|Z]; rewrite Z in A, B; cbn [Nat.eqb] in A, B; discriminate. }
  unfold of_thread in E0, E1, F0, F1.
  destruct l as [|e l]; [discriminate|]. cbn [filter] in *.
  assert (Kl : forall e, In e l -> e_thread e = 0%nat \/ e_thread e = 1%nat) by (intros u Hu; apply K; right; exact Hu).
  destruct (K e (or_introl eq_refl)) as [Z|Z]; rewrite Z in *; cbn [Nat.eqb map] in *;
    (destruct l as [|e2 l]; [discriminate|]); cbn [filter] in *;
    assert (Kl2 : forall e, In e l -> e_thread e = 0%nat \/ e_thread e = 1%nat) by (intros u Hu; apply Kl; right; exact Hu);
    (destruct (Kl e2 (or_introl eq_refl)) as [Z2|Z2]; rewrite Z2 in *; cbn [Nat.eqb map] in *; try discriminate);
    injection E0 as <- E0; injection E1 as <- E1; apply map_eq_nil in E0, E1; rewrite E0 in F0; rewrite E1 in F1; cbn [map] in *; subst rs0 rs1;
    rewrite (Nil l Kl2 E0 E1); cbn [map]; do 2 eexists; (split; [reflexivity|]); (split; [reflexivity|]); auto.
Qed.

Lemma into_fine : forall data, forallb (fun b => b <? 256) data = true -> (0 <? lenN data) && (lenN data <? 70000) = true ->
  fop_ok (fst (into data)) /\ Forall nonempty_iov [IoBuf data].
Proof.
  intros data B Z. assert (Ei : iov_concat [IoBuf data] = data) by apply app_nil_r. split.
  - cbn [fst into fop_ok]. rewrite Ei. split; [repeat constructor|]. split; [apply bytes_check; exact B|]. cbn [sum_lens iov_len]. unfold two64. lia.
  - constructor; [|constructor]. eexists. split; [reflexivity|]. intros ->. discriminate.
Qed.

Lemma past97 : exists P lib al a f input0 buf0 input1 buf1 sched x ts,
  protector P lib al a [] [] f /\ nothing_to_send (fp_crypt f) /\
  fop_ok (FUnprotectInto input0 buf0) /\ Forall nonempty_iov input0 /\ fop_ok (FUnprotectInto input1 buf1) /\ Forall nonempty_iov input1 /\
  let calls := [[(FUnprotectInto input0 buf0, [])]; [(FUnprotectInto input1 buf1, [])]] in
  team_run P lib al (fp_crypt f) (team_start f calls) sched = Done (x, ts) /\ Forall side_end ts /\
  (forall l, ~ team_explained P lib al f calls x ts l) /\
  cx_close x = true /\ exists t out n, nth_error ts 1 = Some t /\ sd_done t = [FUnprotectedInto kOk out n] /\ n <> 0.
Proof.
  destruct (fresh_check past_check) as (f & Hp & H); [vm_compute; reflexivity|]. unfold past_check in H.
  apply andb_prop in H. destruct H as [H H4]. apply andb_prop in H. destruct H as [H H3]. apply andb_prop in H. destruct H as [H1 H2].
  destruct (team_run _ _ _ _ _ _) as [[x [|t0 [|t1 [|? ?]]]]|u|] eqn:Er; try discriminate.
  apply andb_prop in H2. destruct H2 as [H2 H5]. apply andb_prop in H2. destruct H2 as [H2 Hcl]. apply andb_prop in H2. destruct H2 as [T0 T1].
  destruct (sd_done t0) as [|r0 [|? ?]] eqn:D0; try discriminate. destruct (sd_done t1) as [|r1 [|? ?]] eqn:D1; try discriminate.
  apply andb_prop in H5. destruct H5 as [R0 R1].
  assert (Q0 : fop_ok (fst c_close) /\ Forall nonempty_iov [IoBuf (t_record t_dir ty_alert [1; 0])]) by (apply into_fine; vm_compute; reflexivity).
  assert (Q1 : fop_ok (fst c_data) /\ Forall nonempty_iov [IoBuf (t_record (dir_next t_dir) ty_application_data [1; 2; 3])]) by (apply into_fine; vm_compute; reflexivity).
  assert (En : forall t, ended t = true -> sd_now t = None /\ sd_todo t = []).
  { intros t K. unfold ended in K. destruct (sd_now t); [discriminate|]. destruct (sd_todo t); [auto|discriminate]. }
  exists toy, OpenSSL, toy_al, (fargs S0), f, [IoBuf (t_record t_dir ty_alert [1; 0])], (zeros 20),
    [IoBuf (t_record (dir_next t_dir) ty_application_data [1; 2; 3])], (zeros 20), past_sched, x, [t0; t1].
  split; [exact Hp|]. split; [unfold nothing_to_send; destruct (cx_phase (fp_crypt f)); [discriminate|discriminate H1|discriminate]|].
  split; [exact (proj1 Q0)|]. split; [exact (proj2 Q0)|]. split; [exact (proj1 Q1)|]. split; [exact (proj2 Q1)|].
  cbv zeta. split; [exact Er|]. split; [constructor; [apply En; exact T0|]; constructor; [apply En; exact T1|constructor]|].
  split; [|split; [exact Hcl|]].
  - intros l (f1 & Hf & _ & _ & Hi & Ht).
    destruct (Ht 0%nat t0 eq_refl) as (p0 & b0 & A0 & B0 & C0). destruct (Ht 1%nat t1 eq_refl) as (p1 & b1 & A1 & B1 & C1).
    destruct (En _ T0) as [N0 M0]. destruct (En _ T1) as [N1 M1]. rewrite N0 in C0. rewrite N1 in C1.
    destruct p0; [|discriminate]. destruct b0; [|discriminate]. destruct p1; [|discriminate]. destruct b1; [|discriminate].
    rewrite M0 in B0. rewrite M1 in B1. rewrite D0 in A0. rewrite D1 in A1. cbn [nth_error app] in *. rewrite app_nil_r in B0, B1.
    injection B0 as B0. injection B1 as B1.
    destruct (two_orders _ _ l _ _ _ _ Hi (eq_sym B0) (eq_sym B1) A0 A1) as (q0 & q1 & Eq0 & Eq1 & [[Eo Es]|[Eo Es]]);
      injection Eq0 as <-; injection Eq1 as <-; rewrite Eo, Es in Hf.
    + fold (into (t_record t_dir ty_alert [1; 0])) in Hf. fold c_close in Hf. fold (into (t_record (dir_next t_dir) ty_application_data [1; 2; 3])) in Hf. fold c_data in Hf.
      rewrite Hf in H3. destruct r1; try discriminate. cbn [into_ok not_ok] in R1, H3. destruct (is_ok st); discriminate.
    + fold (into (t_record t_dir ty_alert [1; 0])) in Hf. fold c_close in Hf. fold (into (t_record (dir_next t_dir) ty_application_data [1; 2; 3])) in Hf. fold c_data in Hf.
      rewrite Hf in H4. destruct r1; try discriminate. cbn [into_ok not_ok] in R1, H4. destruct (is_ok st); discriminate.
  - exists t1. destruct r1 as [| | |st out n]; try discriminate. cbn [into_ok] in R1. apply andb_prop in R1. destruct R1 as [K1 K2]. apply N.eqb_eq in K2.
    exists out, n. split; [reflexivity|]. split; [|lia]. rewrite D1. destruct st; try discriminate K1. reflexivity.
Qed.

(* ---- a thread uses a freed crypter ---- *)
Definition c_update : fop * faults := into (t_record t_dir ty_handshake key_update_msg).
Definition freed_sched : list nat := repeat 1%nat 2 ++ repeat 0%nat 30 ++ [1%nat].
Definition freed_check (f : fprot) : bool :=
  match team_run toy OpenSSL toy_al (fp_crypt f) (team_start f [[c_update]; [c_data]]) freed_sched with
  | Undef UbUseAfterFree => true
  | _ => false
  end &&
  match frun toy OpenSSL toy_al f [c_update; c_data], frun toy OpenSSL toy_al f [c_data; c_update] with Done _, Done _ => true | _, _ => false end.

Lemma freed97 : exists P lib al a f input0 buf0 input1 buf1 sched,
  protector P lib al a [] [] f /\
  fop_ok (FUnprotectInto input0 buf0) /\ Forall nonempty_iov input0 /\ fop_ok (FUnprotectInto input1 buf1) /\ Forall nonempty_iov input1 /\
  let c0 := (FUnprotectInto input0 buf0, []) in let c1 := (FUnprotectInto input1 buf1, []) in
  team_run P lib al (fp_crypt f) (team_start f [[c0]; [c1]]) sched = Undef UbUseAfterFree /\
  (exists f1 rs1, frun P lib al f [c0; c1] = Done (f1, rs1)) /\ (exists f2 rs2, frun P lib al f [c1; c0] = Done (f2, rs2)).
Proof.
  destruct (fresh_check freed_check) as (f & Hp & H); [vm_compute; reflexivity|]. unfold freed_check in H.
  apply andb_prop in H. destruct H as [H1 H2].
  assert (Q0 : fop_ok (fst c_update) /\ Forall nonempty_iov [IoBuf (t_record t_dir ty_handshake key_update_msg)]) by (apply into_fine; vm_compute; reflexivity).
  assert (Q1 : fop_ok (fst c_data) /\ Forall nonempty_iov [IoBuf (t_record (dir_next t_dir) ty_application_data [1; 2; 3])]) by (apply into_fine; vm_compute; reflexivity).
  exists toy, OpenSSL, toy_al, (fargs S0), f, [IoBuf (t_record t_dir ty_handshake key_update_msg)], (zeros 20),
    [IoBuf (t_record (dir_next t_dir) ty_application_data [1; 2; 3])], (zeros 20), freed_sched.
  split; [exact Hp|]. split; [exact (proj1 Q0)|]. split; [exact (proj2 Q0)|]. split; [exact (proj1 Q1)|]. split; [exact (proj2 Q1)|].
  cbv zeta. split.
  - change (team_run toy OpenSSL toy_al (fp_crypt f) (team_start f [[c_update]; [c_data]]) freed_sched = Undef UbUseAfterFree).
    destruct (team_run toy OpenSSL toy_al (fp_crypt f) (team_start f [[c_update]; [c_data]]) freed_sched) as [[? ?]|[]|]; try discriminate. reflexivity.
  - destruct (frun toy OpenSSL toy_al f [c_update; c_data]) as [[f1 rs1]|u|] eqn:E1; try discriminate.
    destruct (frun toy OpenSSL toy_al f [c_data; c_update]) as [[f2 rs2]|u|] eqn:E2; try discriminate. split; [exists f1, rs1; exact E1|exists f2, rs2; exact E2].
Qed.

(* ---- the records of one call between those of another ---- *)
Definition c_two : fop * faults :=
  (FUnprotect [IoBuf (t_record t_dir ty_application_data [1; 2; 3] ++ t_record (dir_next (dir_next t_dir)) ty_application_data [7; 8; 9])], []).
Definition between_sched : list nat := repeat 0%nat 18 ++ repeat 1%nat 30 ++ repeat 0%nat 60.
Definition all_ok (r : fres) : bool := match r with FUnprotected st bs => is_ok st && (lenN bs =? 2) | _ => false end.
Definition between_check (f : fprot) : bool :=
  match cx_phase (fp_crypt f) with RECEIVING => false | _ => true end &&
  match team_run toy OpenSSL toy_al (fp_crypt f) (team_start f [[c_two]; [c_data]]) between_sched with
  | Done (x, [t0; t1]) => ended t0 && ended t1 &&
      match sd_done t0, sd_done t1 with [r0], [r1] => all_ok r0 && into_ok r1 | _, _ => false end
  | _ => false
  end &&
  match frun toy OpenSSL toy_al f [c_two; c_data] with Done (_, [r; _]) => negb (all_ok r) | _ => false end &&
  match frun toy OpenSSL toy_al f [c_data; c_two] with Done (_, [r; _]) => not_ok r | _ => false end.

Lemma some_eq : forall A (a b : A), Some a = Some b -> a = b.
Proof. congruence. Qed.

Lemma between97 : exists P lib al a f input0 input1 buf1 sched x ts,
  protector P lib al a [] [] f /\ nothing_to_send (fp_crypt f) /\
  fop_ok (FUnprotect input0) /\ Forall nonempty_iov input0 /\ fop_ok (FUnprotectInto input1 buf1) /\ Forall nonempty_iov input1 /\
  let calls := [[(FUnprotect input0, [])]; [(FUnprotectInto input1 buf1, [])]] in
  team_run P lib al (fp_crypt f) (team_start f calls) sched = Done (x, ts) /\ Forall side_end ts /\
  (forall l, ~ team_explained P lib al f calls x ts l) /\
  exists t0 bufs t1 out n, ts = [t0; t1] /\ sd_done t0 = [FUnprotected kOk bufs] /\ lenN bufs = 2 /\ sd_done t1 = [FUnprotectedInto kOk out n] /\ n <> 0.
Proof.
  destruct (fresh_check between_check) as (f & Hp & H); [vm_compute; reflexivity|]. unfold between_check in H.
  apply andb_prop in H. destruct H as [H H4]. apply andb_prop in H. destruct H as [H H3]. apply andb_prop in H. destruct H as [H1 H2].
  destruct (team_run _ _ _ _ _ _) as [[x [|t0 [|t1 [|? ?]]]]|u|] eqn:Er; try discriminate.
  apply andb_prop in H2. destruct H2 as [H2 H5]. apply andb_prop in H2. destruct H2 as [T0 T1].
  destruct (sd_done t0) as [|r0 [|? ?]] eqn:D0; try discriminate. destruct (sd_done t1) as [|r1 [|? ?]] eqn:D1; try discriminate.
  apply andb_prop in H5. destruct H5 as [R0 R1].
  assert (Q0 : fop_ok (fst c_two)) by (apply unprotect_ok; [vm_compute; reflexivity|repeat constructor]).
  assert (Q1 : fop_ok (fst c_data) /\ Forall nonempty_iov [IoBuf (t_record (dir_next t_dir) ty_application_data [1; 2; 3])]) by (apply into_fine; vm_compute; reflexivity).
  assert (En : forall t, ended t = true -> sd_now t = None /\ sd_todo t = []).
  { intros t K. unfold ended in K. destruct (sd_now t); [discriminate|]. destruct (sd_todo t); [auto|discriminate]. }
  exists toy, OpenSSL, toy_al, (fargs S0), f, [IoBuf (t_record t_dir ty_application_data [1; 2; 3] ++ t_record (dir_next (dir_next t_dir)) ty_application_data [7; 8; 9])],
    [IoBuf (t_record (dir_next t_dir) ty_application_data [1; 2; 3])], (zeros 20), between_sched, x, [t0; t1].
  split; [exact Hp|]. split; [unfold nothing_to_send; destruct (cx_phase (fp_crypt f)); [discriminate|discriminate H1|discriminate]|].
  split; [exact Q0|]. split.
  { constructor; [|constructor]. eexists. split; [reflexivity|]. intros K. apply (f_equal lenN) in K. revert K. vm_compute. discriminate. }
  split; [exact (proj1 Q1)|]. split; [exact (proj2 Q1)|].
  cbv zeta. split; [exact Er|]. split; [constructor; [apply En; exact T0|]; constructor; [apply En; exact T1|constructor]|]. split.
  - intros l (f1 & Hf & _ & _ & Hi & Ht).
    destruct (Ht 0%nat t0 eq_refl) as (p0 & b0 & A0 & B0 & C0). destruct (Ht 1%nat t1 eq_refl) as (p1 & b1 & A1 & B1 & C1).
    destruct (En _ T0) as [N0 M0]. destruct (En _ T1) as [N1 M1]. rewrite N0 in C0. rewrite N1 in C1.
    destruct p0; [|discriminate]. destruct b0; [|discriminate]. destruct p1; [|discriminate]. destruct b1; [|discriminate].
    rewrite M0 in B0. rewrite M1 in B1. rewrite D0 in A0. rewrite D1 in A1.
    change (Some [c_two] = Some (map e_op (of_thread 0 l) ++ [])) in B0. change (Some [c_data] = Some (map e_op (of_thread 1 l) ++ [])) in B1.
    rewrite app_nil_r in A0, A1, B0, B1. apply some_eq in B0, B1.
    destruct (two_orders _ _ l _ _ _ _ Hi (eq_sym B0) (eq_sym B1) A0 A1) as (q0 & q1 & Eq0 & Eq1 & [[Eo Es]|[Eo Es]]);
      injection Eq0 as <-; injection Eq1 as <-; rewrite Eo, Es in Hf.
    + rewrite Hf, R0 in H3. discriminate.
    + rewrite Hf in H4. destruct r1; try discriminate. cbn [into_ok not_ok] in R1, H4. destruct (is_ok st); discriminate.
  - destruct r0 as [| |st0 bufs|]; try discriminate. destruct r1 as [| | |st out n]; try discriminate. cbn [into_ok all_ok] in R0, R1.
    apply andb_prop in R1. destruct R1 as [K1 K2]. apply N.eqb_eq in K2. apply andb_prop in R0. destruct R0 as [J1 J2]. apply N.eqb_eq in J2.
    exists t0, bufs, t1, out, n. split; [reflexivity|]. split; [rewrite D0; destruct st0; try discriminate J1; reflexivity|].
    split; [exact J2|]. split; [rewrite D1; destruct st; try discriminate K1; reflexivity|lia].
Qed.
