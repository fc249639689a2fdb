(* A Protect call and an Unprotect call in two threads. *)
From Coq Require Import List NArith Bool Lia.
From Verif Require Import Base Aead Hkdf HalfConn Options HsHandler Crypter FrameProt
  Conc ConcAlone ConcTag CrypterProofs.
Import ListNotations.
Local Open Scope N_scope.

Lemma set_out_twice : forall x h h', set_out (set_out x h) h' = set_out x h'.
Proof. reflexivity. Qed.

Definition tag16 (x : crypt) : Prop := half_tag_length (cx_in x) = Done 16.
Definition epoch_in (x : crypt) : N := hc_epoch (cx_in x).

Lemma tag16_load : forall x, tag16 x -> load_tag (cx_in x) = Some (epoch_in x).
Proof. intros x H. unfold tag16, half_tag_length in H. unfold load_tag. destruct (hc_aead (cx_in x)); [reflexivity|discriminate]. Qed.

(* ---- what Protect does to the crypter ---- *)
Inductive outbound {A} : prog crypt A -> Prop :=
| OB_ret : forall a, outbound (Ret a)
| OB_step : forall B (f : crypt -> outcome (crypt * B)) k,
    (exists g, forall x, f x = obind (g (cx_out x)) (fun '(h, b) => Done (set_out x h, b))) ->
    (forall b, outbound (k b)) -> outbound (Step f k)
| OB_tag : forall k, (forall t, outbound (k t)) ->
    outbound (Step load_in (fun p => Step (use_in p) k)).

Lemma outbound_bind : forall A B (p : prog crypt A) (k : A -> prog crypt B),
  outbound p -> (forall a, outbound (k a)) -> outbound (pbind p k).
Proof.
  intros A B p k H Hk. induction H; cbn [pbind]; [apply Hk|apply OB_step; assumption|].
  apply (OB_tag (fun t => pbind (k0 t) k)). assumption.
Qed.

Definition outboundC {A} (m : C crypt A) : Prop := forall fs, outbound (m fs).
Lemma outbound_cbind : forall A B (m : C crypt A) (k : A -> C crypt B),
  outboundC m -> (forall a, outboundC (k a)) -> outboundC (cbind m k).
Proof. intros A B m k H Hk fs. apply outbound_bind; [apply H|]. intros [a fs1]. apply Hk. Qed.
Lemma outbound_cret : forall A (a : A), outboundC (cret a).
Proof. intros A a fs. constructor. Qed.
Lemma outbound_own : forall A (o : outcome A), outboundC (own o).
Proof.
  intros A o fs. apply OB_step; [|intro; constructor].
  exists (fun h => obind o (fun a => Done (h, a))). intro x. destruct o; cbn; [rewrite set_out_same|..]; reflexivity.
Qed.
Lemma outbound_tag_in : outboundC tag_in.
Proof. intros fs. apply (OB_tag (fun t => Ret (t, fs))). intro; constructor. Qed.
Lemma outbound_tag_out : outboundC tag_out.
Proof.
  intros fs. apply OB_step.
  - exists (fun h => Done (h, load_tag h)). intro x. cbn. rewrite set_out_same. reflexivity.
  - intro p. apply OB_step; [|intro; constructor].
    exists (fun h => obind (use_tag p h) (fun t => Done (h, t))). intro x. unfold use_out.
    destruct (use_tag p (cx_out x)); cbn; [rewrite set_out_same|..]; reflexivity.
Qed.
Lemma outbound_encrypt : forall A (m : half -> M (half * A)),
  outboundC (actM (fun x => '(h, a) <- m (cx_out x) ;; ret (set_out x h, a))).
Proof.
  intros A m fs. apply OB_step; [|intro; constructor].
  exists (fun h => obind (m h fs) (fun '((h, a), fs) => Done (h, (a, fs)))). intro x. rewrite bind_eq.
  destruct (m (cx_out x) fs) as [[[h a] fs1]|u|]; reflexivity.
Qed.

Ltac ob := repeat (cbn beta iota zeta;
  match goal with
  | |- outboundC (cbind _ _) => apply outbound_cbind; [|intro]
  | |- outboundC (cret _) => apply outbound_cret
  | |- outboundC (own _) => apply outbound_own
  | |- outboundC tag_in => apply outbound_tag_in
  | |- outboundC tag_out => apply outbound_tag_out
  | |- outboundC overhead_c => unfold overhead_c
  | |- outboundC (if ?b then _ else _) => destruct b
  | |- outboundC (match ?x with _ => _ end) => destruct x
  end).

Lemma outbound_crypt_protect : forall P t pt record, outboundC (crypt_protect_c P t pt record).
Proof.
  intros. unfold crypt_protect_c, protect_checks, protect_payload. ob.
  all: intros fs; apply OB_step; [|intro; constructor];
    exists (fun h => obind (half_encrypt P h [IoBuf b] (pt ++ [IoBuf [convert_record_type t]])
                    (IoBuf (dropN kTlsRecordHeaderSize (iov_data record))) fs)
             (fun '((h, r, tail), fs) => Done (h, ((r, tail), fs))));
    intro x; rewrite bind_eq;
    destruct (half_encrypt P (cx_out x) _ _ _ fs) as [[[[h r] tail] fs1]|u|]; reflexivity.
Qed.

Lemma outbound_loop : forall fuel P m c remaining first out index id,
  outboundC (protect_loop_c fuel P m c remaining first out index id).
Proof.
  induction fuel as [|fuel IH]; intros; cbn [protect_loop_c]; ob.
  - apply outbound_crypt_protect.
  - apply IH.
Qed.

Lemma outbound_protect : forall P al m input, outboundC (fp_protect_c P al m input).
Proof.
  intros. unfold fp_protect_c, number_bytes_c, fp_protect_into_c. ob; try apply outbound_loop; try apply outbound_crypt_protect.
Qed.

(* ---- what Unprotect does ---- *)
Definition inbound_step {B} (f : crypt -> outcome (crypt * B)) : Prop :=
  (forall x h, f (set_out x h) = obind (f x) (fun '(x', b) => Done (set_out x' h, b))) /\
  (forall x x' b, f x = Done (x', b) -> epoch_in x <= epoch_in x' /\ (tag16 x -> tag16 x')).

Inductive inbound {A} : prog crypt A -> Prop :=
| IB_ret : forall a, inbound (Ret a)
| IB_step : forall B (f : crypt -> outcome (crypt * B)) k,
    inbound_step f -> (forall b, inbound (k b)) -> inbound (Step f k).

Lemma inbound_bind : forall A B (p : prog crypt A) (k : A -> prog crypt B),
  inbound p -> (forall a, inbound (k a)) -> inbound (pbind p k).
Proof. intros A B p k H Hk. induction H; cbn [pbind]; [apply Hk|apply IB_step; assumption]. Qed.

Definition inboundC {A} (m : C crypt A) : Prop := forall fs, inbound (m fs).
Lemma inbound_cbind : forall A B (m : C crypt A) (k : A -> C crypt B),
  inboundC m -> (forall a, inboundC (k a)) -> inboundC (cbind m k).
Proof. intros A B m k H Hk fs. apply inbound_bind; [apply H|]. intros [a fs1]. apply Hk. Qed.
Lemma inbound_cret : forall A (a : A), inboundC (cret a).
Proof. intros A a fs. constructor. Qed.
Lemma inbound_own : forall A (o : outcome A), inboundC (own o).
Proof.
  intros A o fs. apply IB_step; [|intro; constructor]. split.
  - intros x h. destruct o; reflexivity.
  - intros x x' b E. destruct o; try discriminate. injection E as <- _. split; [lia|auto].
Qed.
Lemma inbound_act : forall A (f : crypt -> outcome (crypt * A)), inbound_step f -> inboundC (act f).
Proof. intros A f H fs. apply IB_step; [exact H|]. intro; constructor. Qed.
Lemma inbound_tag_in : inboundC tag_in.
Proof.
  apply inbound_cbind; [|intro p]; apply inbound_act; split.
  - reflexivity.
  - intros x x' b E. injection E as <- _. split; [lia|auto].
  - intros x h. unfold use_in. cbn [cx_in set_out]. destruct (use_tag p (cx_in x)); reflexivity.
  - intros x x' b E. unfold use_in in E. destruct (use_tag p (cx_in x)); try discriminate. injection E as <- _. split; [lia|auto].
Qed.

(* Steps that leave the inbound half connection alone. *)
Lemma plain_step : forall A (f : crypt -> outcome (crypt * A)),
  (forall x h, f (set_out x h) = obind (f x) (fun '(x', b) => Done (set_out x' h, b))) ->
  (forall x x' b, f x = Done (x', b) -> cx_in x' = cx_in x) -> inbound_step f.
Proof.
  intros A f H1 H2. split; [exact H1|]. intros x x' b E. unfold epoch_in, tag16. rewrite (H2 _ _ _ E). split; [lia|auto].
Qed.

Lemma send_tickets_out : forall x h,
  send_tickets (set_out x h) = obind (send_tickets x) (fun x' => Done (set_out x' h)).
Proof.
  intros x h. unfold send_tickets. cbn [cx_handler set_out].
  destruct (get_stored_tickets (cx_handler x)) as [[h1 [c|ts]]|u|]; reflexivity.
Qed.
Lemma send_tickets_in : forall x x', send_tickets x = Done x' -> cx_in x' = cx_in x.
Proof.
  intros x x' E. unfold send_tickets in E.
  destruct (get_stored_tickets (cx_handler x)) as [[h1 [c|ts]]|u|]; cbn in E; try discriminate; injection E as <-; reflexivity.
Qed.

Ltac ib := repeat (cbn beta iota zeta;
  match goal with
  | |- inboundC (cbind _ _) => apply inbound_cbind; [|intro]
  | |- inboundC (cret _) => apply inbound_cret
  | |- inboundC (own _) => apply inbound_own
  | |- inboundC tag_in => apply inbound_tag_in
  | |- inboundC overhead_c => unfold overhead_c
  | |- inboundC (if ?b then _ else _) => destruct b
  | |- inboundC (match ?x with _ => _ end) => destruct x
  end).

Lemma inbound_update : forall P lib, inboundC (actM (fun x : crypt =>
  '(h, st) <- half_update_key P lib (cx_in x) ;; ret (set_in x h, st))).
Proof.
  intros P lib fs. apply IB_step; [|intro; constructor]. split.
  - intros x h. rewrite !bind_eq. cbn [cx_in set_out].
    destruct (half_update_key P lib (cx_in x) fs) as [[[h1 st] fs1]|u|]; reflexivity.
  - intros x x' b E. rewrite bind_eq in E.
    destruct (half_update_key P lib (cx_in x) fs) as [[[h1 st] fs1]|u|] eqn:K; cbn in E; try discriminate.
    injection E as <- _. destruct (half_update_object P lib (cx_in x) _ _ _ K) as [K1 K2].
    unfold epoch_in, tag16. cbn [cx_in set_in]. auto.
Qed.

Lemma inbound_decrypt : forall P aad ct out, inboundC (actM (fun x : crypt =>
  '(h, r, out) <- half_decrypt P (cx_in x) aad ct out ;; ret (set_in x h, (r, out)))).
Proof.
  intros P aad ct out fs. apply IB_step; [|intro; constructor]. split.
  - intros x h. rewrite !bind_eq. cbn [cx_in set_out].
    destruct (half_decrypt P (cx_in x) aad ct out fs) as [[[[h1 st] o1] fs1]|u|]; reflexivity.
  - intros x x' b E. rewrite bind_eq in E.
    destruct (half_decrypt P (cx_in x) aad ct out fs) as [[[[h1 st] o1] fs1]|u|] eqn:K; cbn in E; try discriminate.
    injection E as <- _. destruct (half_decrypt_object P (cx_in x) _ _ _ _ _ _ K) as (K1 & K2 & _).
    unfold epoch_in, tag16. cbn [cx_in set_in fst] in *. rewrite K2. split; [lia|auto].
Qed.

Lemma inbound_handle : forall P lib r, inboundC (handle_result_c P lib r).
Proof.
  intros P lib [st|r]; unfold handle_result_c; ib.
  - apply inbound_act, plain_step; [reflexivity|]. intros x x' b E. injection E as <- _. reflexivity.
  - apply inbound_update.
  - apply inbound_act, plain_step.
    + intros x h. cbn [cx_phase set_out].
      destruct (cx_phase x); [| |reflexivity]; (destruct (r_ticket r); [destruct (kMaxNumTicketsToProcess <=? r_num r)|]; cbn [andb]; try reflexivity;
        match goal with |- context [send_tickets ?y] =>
          match goal with |- _ = obind (obind (send_tickets ?z) _) _ => change y with (set_out z h); rewrite send_tickets_out; destruct (send_tickets z); reflexivity end end).
    + intros x x' b E.
      destruct (cx_phase x); [| |injection E as <- _; reflexivity];
      (destruct (r_ticket r); [destruct (kMaxNumTicketsToProcess <=? r_num r)|]; cbn [andb] in E;
       try (injection E as <- _; reflexivity);
       match type of E with context [send_tickets ?z] => destruct (send_tickets z) as [y|u|] eqn:K end; cbn in E; try discriminate;
       injection E as <- _; apply send_tickets_in in K; cbn; rewrite K; reflexivity).
Qed.

Lemma inbound_crypt_unprotect : forall P lib hdr payload out, inboundC (crypt_unprotect_c P lib hdr payload out).
Proof.
  intros. unfold crypt_unprotect_c. ib.
  all: try (apply inbound_act, plain_step; [reflexivity|intros x x' b0 E; injection E as <- _; reflexivity]).
  all: try apply inbound_decrypt. all: try apply inbound_handle.
  all: apply inbound_act, plain_step.
  - intros x h. cbn [cx_handler set_out].
    match goal with |- context [process_handshake_message ?a ?b] => destruct (process_handshake_message a b) as [[h1 r1]|u|] end; reflexivity.
  - intros x x' b0 E.
    match type of E with context [process_handshake_message ?a ?b] => destruct (process_handshake_message a b) as [[h1 r1]|u|] end;
      cbn in E; try discriminate. injection E as <- _. reflexivity.
  - intros x h. cbn [cx_expecting set_out cx_phase]. destruct (cx_expecting x); [reflexivity|].
    destruct (cx_phase x); [reflexivity| |reflexivity]. rewrite send_tickets_out. destruct (send_tickets x); reflexivity.
  - intros x x' b0 E. destruct (cx_expecting x); [injection E as <- _; reflexivity|].
    destruct (cx_phase x); [injection E as <- _; reflexivity| |injection E as <- _; reflexivity].
    destruct (send_tickets x) as [y|u|] eqn:K; cbn in E; try discriminate. injection E as <- _.
    apply send_tickets_in in K. cbn. rewrite K. reflexivity.
Qed.

Lemma inbound_loop : forall fuel P lib al m c remaining acc, inboundC (unprotect_loop_c fuel P lib al m c remaining acc).
Proof.
  induction fuel as [|fuel IH]; intros; cbn [unprotect_loop_c]; ib; try apply inbound_crypt_unprotect; apply IH.
Qed.

Lemma inbound_unprotect : forall P lib al m input, inboundC (fp_unprotect_c P lib al m input).
Proof. intros. unfold fp_unprotect_c. ib. apply inbound_loop. Qed.

(* Along a run of an inbound program the number of keys does not decrease. *)
Lemma inbound_epoch : forall A (q : prog crypt A), inbound q -> forall w wf b,
  alone q w = Done (wf, b) -> epoch_in w <= epoch_in wf.
Proof.
  intros A q H. induction H as [a|B f k [F1 F2] Hk IH]; intros w wf b E; cbn in E.
  - injection E as <- _. lia.
  - destruct (f w) as [[w1 b1]|u|] eqn:K; cbn in E; try discriminate.
    destruct (F2 _ _ _ K) as [K1 _]. apply IH in E. lia.
Qed.

(* ---- the interleaving ---- *)
Section Two.
Context {A B : Type}.
Variables (zf : crypt) (a : A) (wf : crypt) (b : B) (e0 : N).

(* Protect, with state [z] as if it were alone and Unprotect not there: either
   not inside TagLength, or holding the pointer [e] that TagLength has loaded. *)
Definition first_ok (p : prog crypt A) (z w : crypt) : Prop :=
  (outbound p /\ alone p z = Done (zf, a)) \/
  (exists n k, p = Step (use_in (Some n)) k /\ (forall t, outbound (k t)) /\ alone (k 16) z = Done (zf, a) /\
     e0 <= n <= epoch_in w).

Definition together (y : crypt) (p : prog crypt A) (q : prog crypt B) : Prop :=
  exists z w, y = set_out w (cx_out z) /\ tag16 z /\ tag16 w /\ e0 <= epoch_in w /\
    first_ok p z w /\ inbound q /\ alone q w = Done (wf, b).

Lemma both_sound : forall sched y p q, together y p q ->
  match both sched p q y with
  | Done (y', p', q') => together y' p' q'
  | Undef u => u = UbUseAfterFree /\ e0 < epoch_in wf
  | NoFuel => False
  end.
Proof.
  induction sched as [|turn sched IH]; intros y p q H; cbn [both]; [exact H|].
  pose proof H as (z & w & Ey & Tz & Tw & He & Hp & Hq & Eq).
  destruct turn.
  - destruct Hp as [[Ho Ea]|(n & k & -> & Hk & Ea & Hn)].
    + inversion Ho as [a' Hp|B' f k Hf Hk Hp|k Hk Hp]; subst p.
      * apply IH. exact H.
      * destruct Hf as [g Hf]. cbn [alone] in Ea. rewrite Hf in Ea. rewrite Hf, Ey.
        change (cx_out (set_out w (cx_out z))) with (cx_out z).
        destruct (g (cx_out z)) as [[h b1]|u|]; cbn [obind] in *; try discriminate.
        apply IH. exists (set_out z h), w. split; [reflexivity|]. split; [exact Tz|]. split; [exact Tw|]. split; [exact He|].
        split; [left; auto|]. auto.
      * cbn [load_in obind]. rewrite Ey. change (cx_in (set_out w (cx_out z))) with (cx_in w). rewrite (tag16_load w Tw).
        apply IH. exists z, w. split; [reflexivity|]. split; [exact Tz|]. split; [exact Tw|]. split; [exact He|].
        split; [|auto]. right. exists (epoch_in w), k. split; [reflexivity|]. split; [exact Hk|]. split; [|lia].
        cbn [alone load_in obind] in Ea. rewrite (tag16_load z Tz) in Ea. unfold use_in, use_tag in Ea.
        unfold epoch_in in Ea. rewrite N.eqb_refl in Ea. unfold tag16 in Tz. rewrite Tz in Ea. exact Ea.
    + rewrite Ey. unfold use_in, use_tag. change (cx_in (set_out w (cx_out z))) with (cx_in w).
      destruct (N.eqb_spec n (hc_epoch (cx_in w))) as [En|En].
      * unfold tag16 in Tw. rewrite Tw. cbn [obind].
        apply IH. exists z, w. split; [reflexivity|]. split; [exact Tz|]. split; [exact Tw|]. split; [exact He|].
        split; [left; auto|auto].
      * cbn [obind]. split; [reflexivity|]. pose proof (inbound_epoch _ _ Hq _ _ _ Eq). unfold epoch_in in *. lia.
  - destruct Hq as [b'|B' f k [F1 F2] Hk].
    + apply IH. exact H.
    + rewrite Ey, F1. cbn [alone] in Eq. destruct (f w) as [[w1 b1]|u|] eqn:K; cbn [obind] in *; try discriminate.
      destruct (F2 _ _ _ K) as [K1 K2].
      apply IH. exists z, w1. split; [reflexivity|]. split; [exact Tz|]. split; [auto|]. split; [lia|].
      split; [|auto]. destruct Hp as [Hp|(n & k' & Q1 & Q2 & Q3 & Q4)]; [left; exact Hp|].
      right. exists n, k'. repeat split; auto; lia.
Qed.

Lemma together_done : forall y p q, together y p q ->
  (forall r, p = Ret r -> r = a) /\ (forall r, q = Ret r -> r = b) /\
  (forall r r', p = Ret r -> q = Ret r' -> y = set_out wf (cx_out zf)).
Proof.
  intros y p q (z & w & Ey & Tz & Tw & He & Hp & Hq & Eq).
  assert (P1 : forall r, p = Ret r -> r = a /\ z = zf).
  { intros r ->. destruct Hp as [[_ Ea]|(n & k & K & _)]; [|discriminate]. cbn in Ea. injection Ea as -> ->. auto. }
  assert (P2 : forall r, q = Ret r -> r = b /\ w = wf).
  { intros r ->. cbn in Eq. injection Eq as -> ->. auto. }
  split; [intros r Er; apply P1 in Er; tauto|]. split; [intros r Er; apply P2 in Er; tauto|].
  intros r r' E1 E2. apply P1 in E1. apply P2 in E2. destruct E1 as [_ ->], E2 as [_ ->]. exact Ey.
Qed.
End Two.

(* Every schedule can be completed. *)
Lemma both_app : forall S A B s1 s2 (p : prog S A) (q : prog S B) s,
  both (s1 ++ s2) p q s = obind (both s1 p q s) (fun '(s, p, q) => both s2 p q s).
Proof.
  induction s1 as [|t s1 IH]; intros s2 p q s; cbn [app both]; [reflexivity|].
  destruct t.
  - destruct p as [a|C f k]; [apply IH|]. destruct (f s) as [[s' b]|u|]; cbn [obind]; auto.
  - destruct q as [a|C f k]; [apply IH|]. destruct (f s) as [[s' b]|u|]; cbn [obind]; auto.
Qed.

Lemma finish_second : forall S A B (q : prog S B) (a : A) s, exists sched,
  match both sched (Ret a) q s with
  | Done (_, p', q') => p' = Ret a /\ exists r, q' = Ret r
  | _ => True
  end.
Proof.
  induction q as [b|C f k IH]; intros a s.
  - exists []. cbn. split; [reflexivity|]. eauto.
  - destruct (f s) as [[s' b]|u|] eqn:E.
    + destruct (IH b a s') as [sched H]. exists (false :: sched). cbn. rewrite E. exact H.
    + exists [false]. cbn. rewrite E. exact I.
    + exists [false]. cbn. rewrite E. exact I.
Qed.

Lemma finish_both : forall S A B (p : prog S A) (q : prog S B) s, exists sched,
  match both sched p q s with
  | Done (_, p', q') => (exists r, p' = Ret r) /\ exists r, q' = Ret r
  | _ => True
  end.
Proof.
  induction p as [a|C f k IH]; intros q s.
  - destruct (finish_second S A B q a s) as [sched H]. exists sched.
    destruct (both sched (Ret a) q s) as [[[s' p'] q']|u|]; auto. destruct H as [-> H]. split; eauto.
  - destruct (f s) as [[s' b]|u|] eqn:E.
    + destruct (IH b q s') as [sched H]. exists (true :: sched). cbn. rewrite E. exact H.
    + exists [true]. cbn. rewrite E. exact I.
    + exists [true]. cbn. rewrite E. exact I.
Qed.
