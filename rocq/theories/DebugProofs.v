(* A debug build does what a release build does, unless it aborts. *)
From Coq Require Import List NArith ZArith Bool Lia.
From Verif Require Import Base Aead Hkdf HalfConn Options HsHandler Crypter FrameProt SpecTls SpecHs SpecRecord SpecRx CrypterRun
  SpecFrame FrameRun SpecAead AeadRun Debug DebugRun ConcTag.
Import ListNotations.
Local Open Scope N_scope.

(* full_tickets_ is null only after the tickets have been retrieved. *)
Definition tk (h : handler) : Prop := hs_retrieved h = false -> has_tickets h = true.

(* Output buffers do not become null. *)
Definition nn (v : iovec) : Prop := not_null v = true.
Lemma post_lift : forall A (o : outcome A) (Q : A -> Prop), (forall a, o = Done a -> Q a) -> post (lift o) Q.
Proof. intros A o Q H fs a fs' E. unfold lift in E. destruct o; try discriminate. injection E as <- _. auto. Qed.
Lemma post_true : forall A (m : M A), post m (fun _ => True).
Proof. intros A m fs a fs' _. exact I. Qed.
Lemma write_nn : forall out off d, nn out -> post (lift (write_at out off d)) nn.
Proof.
  intros out off d H. apply post_lift. intros o E. unfold write_at in E. destruct d; [injection E as <-; exact H|].
  destruct out; [|discriminate E]. destruct (_ <=? _); [injection E as <-; reflexivity|discriminate E].
Qed.
Lemma zero_nn : forall out, nn out -> post (lift (zero_out out)) nn.
Proof. intros [d|n] H; [|discriminate H]. apply post_lift. intros o E. cbn in E. injection E as <-. reflexivity. Qed.
Definition dl_nn (r : dloop) : Prop := match r with DExit _ _ o => nn o | DCont _ o _ _ _ _ => nn o end.
Lemma zero_exit_nn : forall st e out, nn out -> post (zero_exit st e out) dl_nn.
Proof. intros st e out H. unfold zero_exit. eapply post_bind2; [apply zero_nn; exact H|]. intros o Ho. apply post_ret. exact Ho. Qed.
Lemma decrypt_loop_nn : forall P a ct e out total off rem cur, nn out -> post (decrypt_loop P a e ct out total off rem cur) dl_nn.
Proof.
  intros P a. induction ct as [|v ct IH]; intros e out total off rem cur H; cbn [decrypt_loop]; [apply post_ret; exact H|].
  destruct (_ <=? _); [apply post_ret; exact H|]. destruct (_ =? _); [apply IH; exact H|].
  destruct v as [d|n]; [|apply zero_exit_nn; exact H]. cbn zeta.
  destruct (_ <? _); [apply post_ret; exact H|]. apply post_bind. intros ok.
  destruct (int_narrow _); [|apply zero_exit_nn; exact H]. destruct ok; [|apply zero_exit_nn; exact H].
  eapply post_bind2; [apply write_nn; exact H|]. intros o Ho. apply IH. exact Ho.
Qed.
Lemma check_tag_nn : forall P a e tag out, nn out -> post (check_tag P a e tag out) (fun r => nn (snd r)).
Proof.
  intros P a e tag out H. unfold check_tag. apply post_bind. intros ok. destruct (negb ok).
  - eapply post_bind2; [apply zero_nn; exact H|]. intros o Ho. apply post_ret. exact Ho.
  - cbn zeta. apply post_bind. intros ok'. destruct (_ && _); [apply post_ret; exact H|].
    eapply post_bind2; [apply zero_nn; exact H|]. intros o Ho. apply post_ret. exact Ho.
Qed.
Lemma decrypt_nn : forall P c n aad ct out, nn out -> post (aead_decrypt P c n aad ct out) (fun r => nn (snd r)).
Proof.
  intros P c n aad ct out H.
  assert (E : post (evp_decrypt P c n aad ct out) (fun r => nn (snd r))).
  { unfold evp_decrypt. cbn zeta. destruct (_ <? _); [apply post_ret; exact H|].
    apply post_bind. intros [st e]. destruct (negb _); [apply post_ret; exact H|].
    apply post_bind. intros [st2 e2]. destruct (negb _); [apply post_ret; exact H|].
    eapply post_bind2; [apply decrypt_loop_nn; exact H|]. intros [st3 e3 o3|e3 o3 t3 r3 cur3 rest3] H3; cbn [dl_nn] in H3.
    - apply post_ret. exact H3.
    - destruct (_ <? _).
      + eapply post_bind2; [apply zero_nn; exact H3|]. intros o Ho. apply post_ret. exact Ho.
      + apply post_bind. intros tag. eapply post_bind2; [apply check_tag_nn; exact H3|].
        intros [[st4 e4] o4] H4. cbn [snd] in H4. destruct (negb _); apply post_ret; exact H4. }
  unfold aead_decrypt. destruct (cr_impl c); [exact E|exact E|].
  unfold bssl_decrypt. destruct (negb _); [apply post_ret; exact H|]. destruct (checked_len ct 0); [|apply post_ret; exact H].
  destruct (_ <? _); [apply post_ret; exact H|]. destruct (_ <? _); [apply post_ret; exact H|]. cbn zeta.
  destruct (collect_checked aad []); [|apply post_ret; exact H]. apply post_bind. intros ok. destruct (_ && _).
  - eapply post_bind2; [apply write_nn; exact H|]. intros o Ho. apply post_ret. exact Ho.
  - eapply post_bind2; [apply zero_nn; exact H|]. intros o Ho. apply post_ret. exact Ho.
Qed.

(* The handler: what reading leaves alone. *)
Lemma store_tk : forall h frag h', store_fragment h frag = Done h' -> hs_tickets h' = hs_tickets h /\ hs_retrieved h' = hs_retrieved h.
Proof.
  intros h frag h' E. unfold store_fragment in E. cbn zeta in E.
  destruct (ignore_future_tickets h); [|injection E as <-; auto].
  destruct (hs_st h); [injection E as <-; auto|]. destruct (get_message_type h) as [t|u|]; try discriminate E. cbn [obind] in E.
  destruct (t =? _); injection E as <-; auto.
Qed.
Lemma read_tk : forall h pt rest full h', read_step h pt = Done (rest, full, h') ->
  hs_tickets h' = hs_tickets h /\ hs_retrieved h' = hs_retrieved h.
Proof.
  intros h pt rest full h' E. unfold read_step in E. cbn zeta in E. destruct (hs_st h); destruct (_ <=? _);
    (destruct (store_fragment h _) as [h1|u|] eqn:Es; try discriminate E; cbn [obind] in E; apply store_tk in Es as [E1 E2]).
  1: destruct (get_data_size h1) as [size|u|]; try discriminate E; cbn [obind] in E.
  all: injection E as _ _ <-; cbn; auto.
Qed.

Section Agree.
(* T: aborting is always fine. U: it is, where the release build has undefined
   behaviour. *)
Variables T U : Prop.

Definition agrees {A} (Q : A -> Prop) (d : DM A) (m : M A) : Prop :=
  forall fs, match d fs with
             | Done (Some a, fs') => m fs = Done (a, fs') /\ Q a
             | Done (None, _) => T \/ (U /\ exists u, m fs = Undef u)
             | Undef u => m fs = Undef u
             | NoFuel => m fs = NoFuel
             end.

Lemma ag_ret : forall A (Q : A -> Prop) a, Q a -> agrees Q (dret a) (ret a).
Proof. intros A Q a H fs. cbn. auto. Qed.
Lemma ag_plain : forall A (Q : A -> Prop) (m : M A), (forall fs a fs', m fs = Done (a, fs') -> Q a) -> agrees Q (plain m) m.
Proof. intros A Q m H fs. unfold plain, bind, dret, ret. destruct (m fs) as [[a fs']|u|] eqn:E; eauto. Qed.
Lemma ag_plain_true : forall A (m : M A), agrees (fun _ => True) (plain m) m.
Proof. intros. apply ag_plain. auto. Qed.
Lemma ag_bind : forall A B (R : A -> Prop) (Q : B -> Prop) d m (k : A -> DM B) (l : A -> M B),
  agrees R d m -> (forall a, R a -> agrees Q (k a) (l a)) -> agrees Q (dbind d k) (bind m l).
Proof.
  intros A B R Q d m k l H K fs. specialize (H fs). unfold dbind, bind, ret.
  destruct (d fs) as [[[a|] fs']|u|].
  - destruct H as [-> HR]. apply K; exact HR.
  - destruct H as [H|[HU [u ->]]]; [left; exact H|right; eauto].
  - rewrite H. reflexivity.
  - rewrite H. reflexivity.
Qed.
Lemma ag_assert : forall A (Q : A -> Prop) b (k : unit -> DM A) m,
  (b = false -> T) -> (b = true -> agrees Q (k tt) m) -> agrees Q (dbind (assert_ b) k) m.
Proof.
  intros A Q b k m H K fs. unfold dbind, assert_, bind, ret. destruct b.
  - apply K. reflexivity.
  - left. auto.
Qed.
Lemma ag_weak : forall A (Q R : A -> Prop) d m, agrees Q d m -> (forall a, Q a -> R a) -> agrees R d m.
Proof. intros A Q R d m H K fs. specialize (H fs). destruct (d fs) as [[[a|] fs']|u|]; intuition. Qed.
Lemma ag_ext : forall A (Q : A -> Prop) d m n, (forall fs, m fs = n fs) -> agrees Q d m -> agrees Q d n.
Proof. intros A Q d m n E H fs. specialize (H fs). rewrite <- E. exact H. Qed.

Definition yes {A} (_ : A) : Prop := True.
Definition gh (h : handler) : Prop := T \/ tk h.
Definition gx (x : crypt) : Prop := gh (cx_handler x).
Definition gout (v : iovec) : Prop := T \/ not_null v = true.

Lemma enc_ag : forall P c nonce aad pt out, gout out ->
  agrees yes (aead_encrypt_d P c nonce aad pt out) (aead_encrypt P c nonce aad pt out).
Proof.
  intros P c nonce aad pt out H. unfold aead_encrypt_d. apply ag_assert; [|intros _; apply ag_plain_true].
  intros E. destruct H as [H|H]; [exact H|congruence].
Qed.

Lemma half_enc_ag : forall P h aad pt out, gout out ->
  agrees yes (half_encrypt_d P h aad pt out) (half_encrypt P h aad pt out).
Proof.
  intros P h aad pt out H. unfold half_encrypt_d, half_encrypt. destruct (hc_aead h) as [c|]; [|apply ag_ret; exact I].
  destruct (_ || _); [apply ag_ret; exact I|]. apply ag_bind with (R := yes); [apply ag_plain_true|].
  intros [nonce h'] _. apply ag_bind with (R := yes); [apply enc_ag; exact H|]. intros [[c' st] o] _. apply ag_ret. exact I.
Qed.

Lemma half_dec_ag : forall P h aad ct out, gout out ->
  agrees (fun r => gout (snd r)) (half_decrypt_d P h aad ct out) (half_decrypt P h aad ct out).
Proof.
  intros P h aad ct out H. unfold half_decrypt_d, half_decrypt. destruct (hc_aead h) as [c|]; [|apply ag_ret; exact H].
  destruct (_ || _); [apply ag_ret; exact H|]. apply ag_bind with (R := yes); [apply ag_plain_true|].
  intros [nonce h'] _. apply ag_bind with (R := fun r => gout (snd r)).
  - assert (K : agrees (fun r => gout (snd r)) (plain (aead_decrypt P c nonce aad ct out)) (aead_decrypt P c nonce aad ct out)).
    { apply ag_plain. intros fs r fs' E. destruct H as [H|H]; [left; exact H|right; exact (decrypt_nn _ _ _ _ _ _ H _ _ _ E)]. }
    unfold aead_decrypt_d. destruct (_ =? _).
    + intros fs. specialize (K fs). unfold dbind, dret, bind at 1, ret at 1. exact K.
    + apply ag_assert; [|intros _; exact K]. intros E. destruct H as [H|H]; [exact H|congruence].
  - intros [[c' st] o] Ho. apply ag_ret. exact Ho.
Qed.

Lemma tk_same : forall h h', hs_tickets h' = hs_tickets h -> hs_retrieved h' = hs_retrieved h -> gh h -> gh h'.
Proof. intros h h' E1 E2 [H|H]; [left; exact H|right]. unfold tk, has_tickets in *. rewrite E1, E2. exact H. Qed.

Lemma add_ag : forall h, gh h -> ignore_future_tickets h = false -> agrees gh (add_ticket_d h) (lift (add_ticket h)).
Proof.
  intros h H Hi. unfold add_ticket_d. apply ag_assert.
  - intros E. destruct H as [H|H]; [exact H|]. unfold ignore_future_tickets in Hi. apply orb_false_iff in Hi as [Hi _].
    rewrite (H Hi) in E. discriminate E.
  - intros _. apply ag_plain. intros fs h' fs' E. unfold lift, add_ticket in E.
    destruct (hs_tickets h); [|discriminate E]. injection E as <- _. right. intros _. reflexivity.
Qed.

Lemma loop_ag : forall fuel h pt a b, gh h ->
  agrees (fun r => gh (fst r)) (process_loop_d fuel h pt a b) (lift (process_loop fuel h pt a b)).
Proof.
  assert (LB : forall A B (o : outcome A) (k : A -> outcome B) fs, bind (lift o) (fun a => lift (k a)) fs = lift (obind o k) fs).
  { intros A B [a|u|] k fs; reflexivity. }
  induction fuel as [|fuel IH]; intros h pt a b H; cbn [process_loop_d process_loop].
  { destruct pt; [|intros fs; reflexivity]. intros fs. cbn. auto. }
  destruct pt as [|p pt]; [intros fs; cbn; auto|].
  eapply ag_ext; [apply LB|]. apply ag_bind with (R := fun r => gh (snd r)).
  { apply ag_plain. intros fs [[rest full] h1] fs' E. unfold lift in E. destruct (read_step h (p :: pt)) as [r|u|] eqn:Er; try discriminate E.
    injection E as -> _. apply read_tk in Er as [E1 E2]. exact (tk_same _ _ E1 E2 H). }
  intros [[rest full] h1] H1. cbn [snd] in H1.
  eapply ag_ext; [apply LB|]. apply ag_bind with (R := yes); [apply ag_plain_true|]. intros t _.
  destruct (t =? kKeyUpdateMessageType).
  { destruct full; [|apply IH; exact H1]. cbn zeta. destruct rest; intros fs; cbn; (split; [reflexivity|]); [|exact H1].
    exact (tk_same _ _ eq_refl eq_refl H1). }
  destruct (t =? kSessionTicketMessageType); [|intros fs; cbn; auto].
  destruct full; [|apply IH; exact H1].
  eapply ag_ext; [apply LB|]. apply ag_bind with (R := gh).
  - destruct (ignore_future_tickets h1) eqn:Ei; [intros fs; cbn; auto|]. apply add_ag; assumption.
  - intros h2 H2. apply IH. exact (tk_same _ _ eq_refl eq_refl H2).
Qed.

Lemma stored_ag : forall h, gh h -> agrees (fun r => gh (fst r)) (get_stored_tickets_d h) (lift (get_stored_tickets h)).
Proof.
  intros h H fs. unfold get_stored_tickets_d, get_stored_tickets.
  destruct (hs_retrieved h) eqn:Er; [cbn; auto|]. unfold has_tickets.
  assert (F : hs_tickets h = None -> T).
  { intros E. destruct H as [H|H]; [exact H|]. specialize (H Er). unfold has_tickets in H. rewrite E in H. discriminate H. }
  assert (K : forall r, gh {| hs_frags := hs_frags h; hs_tickets := r; hs_num := 0; hs_retrieved := true;
                              hs_data := hs_data h; hs_hdr := hs_hdr h; hs_st := hs_st h |}) by (intros r; right; intros E; discriminate E).
  destruct (expecting_more h) eqn:Ex; [destruct (get_message_type h) as [t|u|] eqn:Et; [destruct (t =? kSessionTicketMessageType) eqn:E4|..]|];
    destruct (hs_tickets h) as [ts|] eqn:Eh; unfold dbind, bind, plain, dret, lift, assert_, bind, ret;
    rewrite ?Er, ?Ex, ?Et; cbn [obind]; rewrite ?E4, ?Eh; cbn [obind fst]; auto.
Qed.

Lemma send_ag : forall x, gx x -> agrees gx (send_tickets_d x) (lift (send_tickets x)).
Proof.
  intros x H fs. unfold send_tickets_d, send_tickets. pose proof (stored_ag _ H fs) as K.
  unfold dbind, bind. destruct (get_stored_tickets_d (cx_handler x) fs) as [[[[h r]|] fs']|u|].
  - destruct K as [K Q]. unfold lift in K. destruct (get_stored_tickets (cx_handler x)) as [[h' r']|u|]; try discriminate K.
    injection K as -> -> ->. cbn [fst] in Q. destruct r as [c|ts]; cbn; auto.
  - cbn. destruct K as [K|[HU [u K]]]; [left; exact K|right; split; [exact HU|]]. exists u. unfold lift in K |- *.
    destruct (get_stored_tickets (cx_handler x)); try discriminate K. injection K as ->. reflexivity.
  - unfold lift in K |- *. destruct (get_stored_tickets (cx_handler x)); try discriminate K. injection K as ->. reflexivity.
  - unfold lift in K |- *. destruct (get_stored_tickets (cx_handler x)); try discriminate K. reflexivity.
Qed.

Lemma handle_ag : forall P lib x r, gx x -> agrees (fun r => gx (fst r)) (handle_result_d P lib x r) (handle_result P lib x r).
Proof.
  intros P lib x [st|r] H; [apply ag_ret; exact H|]. unfold handle_result_d, handle_result. cbn zeta.
  apply ag_bind with (R := fun r => gx (fst r)).
  { destruct (r_key_update r); [|apply ag_ret; exact H]. apply ag_bind with (R := yes); [apply ag_plain_true|].
    intros [h st] _. apply ag_ret. exact H. }
  intros [y failed] Hy. cbn [fst] in Hy. destruct failed; [apply ag_ret; exact Hy|].
  assert (Q : forall z, gx z -> agrees (fun r => gx (fst r))
    (if r_ticket r && (kMaxNumTicketsToProcess <=? r_num r) then x0 <! send_tickets_d z;; dret (set_phase x0 DONE false, kOk) else dret (z, kOk))
    (if r_ticket r && (kMaxNumTicketsToProcess <=? r_num r) then x0 <- lift (send_tickets z);; ret (set_phase x0 DONE false, kOk) else ret (z, kOk))).
  { intros z Hz. destruct (_ && _); [|apply ag_ret; exact Hz]. apply ag_bind with (R := gx); [apply send_ag; exact Hz|].
    intros w Hw. apply ag_ret. exact Hw. }
  destruct (cx_phase y); [apply Q|apply Q; exact Hy|apply ag_ret; exact Hy]. destruct (r_ticket r); exact Hy.
Qed.

Lemma unprotect_ag : forall P lib x hdr payload out, gx x -> gout out ->
  agrees (fun r => gx (fst (fst r)) /\ gout (snd r)) (crypt_unprotect_d P lib x hdr payload out) (crypt_unprotect P lib x hdr payload out).
Proof.
  intros P lib x hdr payload out H Ho. unfold crypt_unprotect_d, crypt_unprotect. cbn zeta.
  destruct (cx_close x); [apply ag_ret; auto|].
  apply ag_bind with (R := yes); [apply ag_plain_true|]. intros o _.
  destruct (_ <? _); [apply ag_ret; auto|]. destruct (_ <? _); [apply ag_ret; auto|]. destruct (negb _); [apply ag_ret; auto|].
  apply ag_bind with (R := fun r => gout (snd r)); [apply half_dec_ag; exact Ho|].
  intros [[h [st n]] pt] Hp. cbn [snd] in Hp.
  assert (Hx : gx (set_in x h)) by exact H.
  assert (Z : forall y st', gx y -> agrees (fun r : crypt * sstatus * iovec => gx (fst (fst r)) /\ gout (snd r))
    (plaintext <! plain (lift (zero_out pt));; dret (y, st', plaintext)) (plaintext <- lift (zero_out pt);; ret (y, st', plaintext))).
  { intros y st' Hy. apply ag_bind with (R := gout).
    - apply ag_plain. intros fs v fs' E. destruct Hp as [Hp|Hp]; [left; exact Hp|right; exact (zero_nn _ Hp _ _ _ E)].
    - intros v Hv. apply ag_ret. auto. }
  destruct (negb _); [apply Z; exact Hx|].
  apply ag_assert; [intros E; destruct Hp as [Hp|Hp]; [exact Hp|congruence]|]. intros _.
  destruct (scan_type _) as [[ty content]|]; [|apply ag_ret; auto].
  destruct (ty =? kTls13Alert).
  { destruct content as [|c0 [|c1 cs]]; [apply Z; exact Hx|apply Z; exact Hx|].
    apply ag_bind with (R := gout).
    - apply ag_plain. intros fs v fs' E. destruct Hp as [Hp|Hp]; [left; exact Hp|right; exact (zero_nn _ Hp _ _ _ E)].
    - intros v Hv. destruct (_ =? _); apply ag_ret; auto. }
  destruct (ty =? kTls13Handshake).
  { apply ag_bind with (R := fun r => gh (fst r)); [apply loop_ag; exact Hx|]. intros [h' r] Hr. cbn [fst] in Hr.
    apply ag_bind with (R := fun r => gx (fst r)); [apply handle_ag; exact Hr|]. intros [y st'] Hy. cbn [fst] in Hy.
    destruct (negb _); apply ag_ret; auto. }
  destruct (ty =? kTls13ApplicationData); [|apply Z; exact Hx].
  destruct (cx_expecting (set_in x h)); [apply ag_ret; auto|].
  apply ag_bind with (R := gx).
  { destruct (cx_phase (set_in x h)); [intros fs; cbn; auto| |intros fs; cbn; auto].
    eapply ag_ext with (m := bind (lift (send_tickets (set_in x h))) (fun x => ret (set_phase x DONE (cx_expecting x)))).
    { intros fs. unfold bind, lift, obind. destruct (send_tickets (set_in x h)); reflexivity. }
    apply ag_bind with (R := gx); [apply send_ag; exact Hx|]. intros y Hy. apply ag_ret. exact Hy. }
  intros y Hy. apply ag_ret. auto.
Qed.

(* ---- reading ---- *)
Definition gin (vs : list iovec) : Prop := T \/ Forall (fun v => exists d, v = IoBuf d) vs.
Lemma gin_tl : forall v vs, gin (v :: vs) -> gin vs.
Proof. intros v vs [H|H]; [left; exact H|right; inversion H; assumption]. Qed.
Lemma gin_hd : forall v vs, gin (v :: vs) -> gout v.
Proof. intros v vs [H|H]; [left; exact H|right]. inversion H as [|? ? [d ->]]. reflexivity. Qed.

Lemma byte_ag : forall c, gin (fst c) ->
  agrees (fun r => match r with Some (_, c') => gin (fst c') | None => True end) (read_byte_d c) (lift (read_byte c)).
Proof.
  intros [[|v rest] on] H; [intros fs; cbn; auto|]. unfold read_byte_d. cbn [fst] in H.
  apply ag_assert; [intros E; destruct (gin_hd _ _ H) as [K|K]; [exact K|congruence]|]. intros _.
  apply ag_plain. intros fs r fs' E. unfold lift, read_byte in E. destruct (iov_read v on) as [b|u|]; try discriminate E.
  cbn [obind] in E. injection E as <- _. destruct (_ <=? _); cbn [fst]; [exact (gin_tl _ _ H)|exact H].
Qed.

Lemma header_ag : forall k hdr c, gin (fst c) ->
  agrees (fun r => match r with inr (_, c') => gin (fst c') | inl _ => True end) (read_header_d k hdr c) (lift (read_header k hdr c)).
Proof.
  assert (LB : forall A B (o : outcome A) (k : A -> outcome B) fs, bind (lift o) (fun a => lift (k a)) fs = lift (obind o k) fs).
  { intros A B [a|u|] k fs; reflexivity. }
  induction k as [|k IH]; intros hdr c H; cbn [read_header_d read_header]; [intros fs; cbn; auto|].
  eapply ag_ext; [apply LB|]. eapply ag_bind; [apply byte_ag; exact H|]. intros [[b c']|] Hc; [|intros fs; cbn; auto].
  cbn zeta. destruct (match length hdr with O => _ | _ => _ end); [intros fs; cbn; auto|]. apply IH. exact Hc.
Qed.

Lemma isolate_ag : forall vs on need, gin vs ->
  agrees (fun r => match r with inr (_, c') => gin (fst c') | inl _ => True end) (isolate_payload_d vs on need) (lift (isolate_payload vs on need)).
Proof.
  assert (LB : forall A B (o : outcome A) (k : A -> outcome B) fs, bind (lift o) (fun a => lift (k a)) fs = lift (obind o k) fs).
  { intros A B [a|u|] k fs; reflexivity. }
  induction vs as [|v vs IH]; intros on need H; cbn [isolate_payload_d isolate_payload]; destruct (need =? 0); try (intros fs; cbn; auto; fail).
  apply ag_assert; [intros E; destruct (gin_hd _ _ H) as [K|K]; [exact K|congruence]|]. intros _. cbn zeta.
  eapply ag_ext; [apply LB|]. apply ag_bind with (R := yes); [apply ag_plain_true|]. intros piece _.
  destruct (_ =? _); [|intros fs; cbn; auto].
  eapply ag_ext; [apply LB|]. eapply ag_bind; [apply IH; exact (gin_tl _ _ H)|]. intros [e|[ps c]] Hc; intros fs; cbn; auto.
Qed.

(* ---- the frame protector ---- *)
Lemma collect_ag : T \/ U -> forall vs on need, agrees yes (collect_chunk_d vs on need) (lift (collect_chunk vs on need)).
Proof.
  intros HTU.
  assert (LB : forall A B (o : outcome A) (k : A -> outcome B) fs, bind (lift o) (fun a => lift (k a)) fs = lift (obind o k) fs).
  { intros A B [a|u|] k fs; reflexivity. }
  induction vs as [|v vs IH]; intros on need; cbn [collect_chunk_d collect_chunk]; destruct (need =? 0); try (intros fs; cbn; split; [reflexivity|exact I]; fail).
  - intros fs. cbn. destruct HTU as [K|K]; [left; exact K|right; eauto].
  - apply ag_assert; [discriminate|]. intros _. cbn zeta.
    eapply ag_ext; [apply LB|]. apply ag_bind with (R := yes); [apply ag_plain_true|]. intros piece _.
    destruct (_ <=? _); [|intros fs; cbn; split; [reflexivity|exact I]].
    eapply ag_ext; [apply LB|]. apply ag_bind with (R := yes); [apply IH|]. intros [ps c] _ fs. cbn. split; [reflexivity|exact I].
Qed.

Lemma protect_ag : forall P x t pt record, gout record -> agrees yes (crypt_protect_d P x t pt record) (crypt_protect P x t pt record).
Proof.
  intros P x t pt record H. unfold crypt_protect_d, crypt_protect. cbn zeta.
  destruct (_ <? _); [apply ag_ret; exact I|]. apply ag_bind with (R := yes); [apply ag_plain_true|]. intros o _.
  destruct (_ <? _); [apply ag_ret; exact I|]. apply ag_bind with (R := yes); [apply ag_plain_true|]. intros tag _.
  apply ag_assert; [intros E; destruct H as [K|K]; [exact K|congruence]|]. intros _.
  destruct record as [buf|n]; [|apply ag_ret; exact I].
  apply ag_bind with (R := yes); [apply half_enc_ag; right; reflexivity|]. intros [[h [st n]] tl] _.
  destruct (negb _); [|apply ag_ret; exact I]. apply ag_bind with (R := yes); [apply ag_plain_true|]. intros r _. apply ag_ret. exact I.
Qed.

Lemma protect_loop_ag : T \/ U -> forall P fuel f c remaining first out index id,
  agrees yes (protect_loop_d fuel P f c remaining first out index id) (protect_loop fuel P f c remaining first out index id).
Proof.
  intros HTU P. induction fuel as [|fuel IH]; intros f c remaining first out index id; cbn [protect_loop_d protect_loop];
    (destruct (negb _); [apply ag_ret; exact I|]); [intros fs; reflexivity|]. cbn zeta.
  apply ag_bind with (R := yes); [apply collect_ag; exact HTU|]. intros [chunk c'] _.
  apply ag_bind with (R := yes); [apply protect_ag; right; reflexivity|]. intros [[x [st w]] tl] _.
  destruct st; try (apply ag_ret; exact I).
  apply ag_bind with (R := yes); [apply ag_plain_true|]. intros o _. destruct (negb _); [apply ag_ret; exact I|apply IH].
Qed.

Lemma protect_into_ag : T \/ U -> forall P f input id out, gout out ->
  agrees yes (fp_protect_into_d P f input id out) (fp_protect_into P f input id out).
Proof.
  intros HTU P f input id out H. unfold fp_protect_into_d, fp_protect_into. cbn zeta. destruct out as [buf|n].
  - apply ag_bind with (R := yes); [apply protect_loop_ag; exact HTU|]. intros [[f' st] b] _. apply ag_ret. exact I.
  - apply ag_bind with (R := yes); [apply collect_ag; exact HTU|]. intros [chunk c] _.
    apply ag_bind with (R := yes); [apply protect_ag; exact H|]. intros [[x [st w]] o] _. apply ag_ret. exact I.
Qed.

Lemma fprotect_ag : T \/ U -> forall P al f input, T \/ alloc_ok al ->
  agrees yes (fp_protect_d P al f input) (fp_protect P al f input).
Proof.
  intros HTU P al f input HA. unfold fp_protect_d, fp_protect. apply ag_bind with (R := yes); [apply ag_plain_true|]. intros size _.
  cbn [fp_alloc]. apply ag_bind with (R := yes).
  - apply protect_into_ag; [exact HTU|]. destruct HA as [HA|HA]; [left; exact HA|right]. destruct (HA (fp_next f) size) as (d & -> & _). reflexivity.
  - intros [[f' st] o] _. destruct (negb _); apply ag_ret; exact I.
Qed.

Definition gf (f : fprot) : Prop := gx (fp_crypt f).

Lemma unprotect_into_ag : forall P lib f input out, gf f -> gin input -> gout out ->
  agrees yes (fp_unprotect_into_d P lib f input out) (fp_unprotect_into P lib f input out).
Proof.
  intros P lib f input out Hf Hi Ho. unfold fp_unprotect_into_d, fp_unprotect_into, compute_record_size.
  apply ag_bind with (R := yes); [apply ag_plain_true|]. intros n _. destruct (n =? 0); [apply ag_ret; exact I|].
  eapply ag_bind; [apply header_ag; exact Hi|]. intros [st|[hdr [vs on]]] Hv; [apply ag_ret; exact I|]. cbn [fst] in Hv.
  eapply ag_bind; [apply isolate_ag; exact Hv|]. intros [st|[payload c]] _; [apply ag_ret; exact I|].
  eapply ag_bind; [apply unprotect_ag; [exact Hf|exact Ho]|]. intros [[x [st w]] o] _. cbn zeta. destruct st; apply ag_ret; exact I.
Qed.

Lemma unprotect_loop_ag : forall P lib al, T \/ alloc_ok al -> forall fuel f c remaining acc, gf f -> gin (fst c) ->
  agrees yes (unprotect_loop_d fuel P lib al f c remaining acc) (unprotect_loop fuel P lib al f c remaining acc).
Proof.
  intros P lib al HA. induction fuel as [|fuel IH]; intros f c remaining acc Hf Hc; cbn [unprotect_loop_d unprotect_loop];
    (apply ag_bind with (R := yes); [apply ag_plain_true|]); intros o _; (destruct (_ <? _); [apply ag_ret; exact I|]); [intros fs; reflexivity|].
  unfold compute_record_size. eapply ag_bind; [apply header_ag; exact Hc|]. intros [st|[hdr [vs on]]] Hv; [apply ag_ret; exact I|]. cbn [fst] in Hv. cbn zeta.
  eapply ag_bind; [apply isolate_ag; exact Hv|]. intros [st|[payload c']] Hc'; [apply ag_ret; exact I|]. cbn [fp_alloc fp_crypt].
  eapply ag_bind.
  - apply unprotect_ag; [exact Hf|]. destruct HA as [HA|HA]; [left; exact HA|right].
    destruct (HA (fp_next f) (header_payload_size hdr)) as (d & -> & _). reflexivity.
  - intros [[x [st w]] mem] [Hx _]. cbn [fst] in Hx. destruct st; try (apply ag_ret; exact I). apply IH; [exact Hx|exact Hc'].
Qed.

Lemma funprotect_ag : forall P lib al f input, T \/ alloc_ok al -> gf f -> gin input ->
  agrees yes (fp_unprotect_d P lib al f input) (fp_unprotect P lib al f input).
Proof.
  intros P lib al f input HA Hf Hi. unfold fp_unprotect_d, fp_unprotect. cbn zeta.
  apply ag_bind with (R := yes); [apply ag_plain_true|]. intros o _. destruct (_ <? _); [apply ag_ret; exact I|].
  apply unprotect_loop_ag; assumption.
Qed.
End Agree.
