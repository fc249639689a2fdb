(* Every key update of the peer can lose errors. *)
From Coq Require Import List NArith Bool.
From Verif Require Import Base Aead Hkdf HalfConn Options HsHandler Crypter SpecTls SpecHs SpecRecord SpecRx CrypterRun SpecAead HalfRun
  ErrQueue SpecErr ErrQueueSame ErrQueueProofs ErrCrypt SpecErrCrypt ErrCryptProofs.
Import ListNotations.
Local Open Scope N_scope.

(* [m] uses up some number of answers of the fault oracle and does not look at
   the rest. *)
Definition calm {A} (m : EM A) : Prop := forall e a e' fs', m e [] = Done ((a, e'), fs') ->
  fs' = [] /\ exists n, forall rest, m e (repeat false n ++ rest) = Done ((a, e'), rest).

Lemma calm_ret : forall A (a : A), calm (qret a).
Proof. intros A a e b e' fs' H. unfold qret, ret in H. injection H as <- <- <-. split; [reflexivity|]. exists O. reflexivity. Qed.
Lemma calm_errors : forall A (a : A), calm (with_errors a).
Proof. intros A a e b e' fs' H. cbv in H. injection H as <- <- <-. split; [reflexivity|]. exists O. reflexivity. Qed.
Lemma calm_lift : forall A (o : outcome A), calm (quiet (lift o)).
Proof.
  intros A o e b e' fs' H. unfold quiet, lift, bind, ret in *. destruct o as [a|u|]; [|discriminate..]. injection H as <- <- <-.
  split; [reflexivity|]. exists O. reflexivity.
Qed.
Lemma calm_zero : forall st c out, calm (quiet (zero_exit st c out)).
Proof.
  intros st c out e b e' fs' H. unfold quiet, zero_exit, lift, bind, ret in *. destruct (zero_out out) as [a|u|]; [|discriminate..]. injection H as <- <- <-.
  split; [reflexivity|]. exists O. reflexivity.
Qed.
Lemma calm_bind : forall A B (m : EM A) (k : A -> EM B), calm m -> (forall a, calm (k a)) -> calm (qbind m k).
Proof.
  intros A B m k Hm Hk e b e' fs' H. destruct (qbind_done _ _ _ _ _ _ _ _ _ H) as [a [e1 [f1 [X Y]]]].
  destruct (Hm _ _ _ _ X) as [-> [n1 N1]]. destruct (Hk _ _ _ _ _ Y) as [-> [n2 N2]]. split; [reflexivity|]. exists (n1 + n2)%nat. intros rest.
  unfold qbind, bind. rewrite repeat_app, <- app_assoc, N1. cbn [fst snd]. apply N2.
Qed.
Lemma calm_library : forall g, calm (library g).
Proof.
  intros g e b e' fs' H. unfold library, bind, ssl, ret in *. cbn [andb] in H.
  destruct g; injection H as <- <- <-; (split; [reflexivity|]; exists 1%nat; reflexivity).
Qed.

Ltac calm_step :=
  match goal with
  | |- calm (qret _) => apply calm_ret
  | |- calm (with_errors _) => apply calm_errors
  | |- calm (quiet (lift _)) => apply calm_lift
  | |- calm (quiet (zero_exit _ _ _)) => apply calm_zero
  | |- calm (library _) => apply calm_library
  | |- calm (qbind _ _) => apply calm_bind; [|intros]
  | |- calm (if ?b then _ else _) => destruct b
  | |- calm (let '(_, _) := ?p in _) => destruct p
  | |- calm (match ?p with _ => _ end) => destruct p
  end.
Ltac calm_tac := repeat (cbn zeta; calm_step).

Lemma init_calm : forall c nonce, calm (init_context_using_nonce_q c nonce).
Proof. intros. unfold init_context_using_nonce_q. calm_tac. Qed.
Lemma aad_calm : forall aad c, calm (set_aad_q c aad).
Proof. induction aad as [|v r IH]; intros c; cbn [set_aad_q]; calm_tac; apply IH. Qed.
Lemma dloop_calm : forall P a ct c out total off rem cur, calm (decrypt_loop_q P a c ct out total off rem cur).
Proof. intros P a. induction ct as [|v r IH]; intros c out total off rem cur; cbn [decrypt_loop_q]; calm_tac; apply IH. Qed.
Lemma tag_calm : forall P a c tag out, calm (check_tag_q P a c tag out).
Proof. intros. unfold check_tag_q. calm_tac. Qed.
Lemma aead_calm : forall P c nonce aad ct out, calm (aead_decrypt_q P c nonce aad ct out).
Proof.
  intros. unfold aead_decrypt_q. destruct (cr_impl c); unfold evp_decrypt_q, bssl_decrypt_q;
    calm_tac; first [apply init_calm|apply aad_calm|apply dloop_calm|apply tag_calm].
Qed.
Lemma decrypt_calm : forall P h aad ct out, calm (half_decrypt_q P h aad ct out).
Proof. intros. unfold half_decrypt_q. calm_tac. apply aead_calm. Qed.
Lemma hloop_calm : forall P h info k c i b d out, calm (hkdf_loop_q P h c info i k b d out).
Proof.
  intros P h info. induction k as [|k IH]; intros c i b d out; cbn [hkdf_loop_q]; [apply calm_ret|].
  unfold hkdf_restart_q, hkdf_block_q. calm_tac; apply IH.
Qed.
Lemma hkdf_calm : forall P h prk info out, calm (hkdf_derive_secret_q P h prk info out).
Proof. intros. unfold hkdf_derive_secret_q, hkdf_derivation_q. calm_tac. apply hloop_calm. Qed.

(* The creation of a crypter fails in its first library call. *)
Lemma create_fails : forall lib s key e c e' fs', create_crypter_q lib s key e [] = Done ((inr c, e'), fs') ->
  forall rest, create_crypter_q lib s key e (true :: rest) = Done ((inl kInternal, taken (raise e)), rest).
Proof.
  intros lib s key e c e' fs' H rest. unfold create_crypter_q, create_aes_gcm_q, create_chacha_poly_q in *. cbn zeta in *.
  destruct s, lib;
    repeat match type of H with (if ?b then _ else _) _ _ = _ => destruct b end;
    try (destruct (qret_done _ _ _ _ _ _ _ H) as [Q _]; discriminate Q); reflexivity.
Qed.

Lemma qbind_run : forall A B (m : EM A) (k : A -> EM B) e fs a e1 fs1, m e fs = Done ((a, e1), fs1) -> qbind m k e fs = k a e1 fs1.
Proof. intros A B m k e fs a e1 fs1 H. unfold qbind, bind. rewrite H. reflexivity. Qed.

(* A key update that succeeds without failures fails with this one, and tells. *)
Lemma update_told : forall P lib h e h' e' fs', half_update_key_q P lib h e [] = Done (((h', kOk), e'), fs') ->
  exists n h2, hc_always_fail h2 = true /\
  forall rest, half_update_key_q P lib h e (repeat false n ++ true :: rest) = Done (((h2, kInternal), taken (raise e)), rest).
Proof.
  intros P lib h e h' e' fs' H. unfold half_update_key_q in H.
  assert (N : forall c, negb (is_ok c) = true -> c <> kOk) by (intros c E ->; discriminate E).
  destruct (qbind_done _ _ _ _ _ _ _ _ _ H) as [[st1 s1] [e1 [f1 [A1 H1]]]]. clear H.
  destruct (hkdf_calm _ _ _ _ _ _ _ _ _ A1) as [-> [n1 N1]].
  destruct (negb (is_ok st1)) eqn:O1. { destruct (qret_done _ _ _ _ _ _ _ H1) as [Q _]. injection Q as _ Q. destruct (N _ O1 (eq_sym Q)). }
  pose proof (ok_code _ O1) as Q1. subst st1. pose proof (hrel_ok _ _ (hkdf_rel _ _ _ _ _ _ _ _ _ _ _ A1)) as E1. subst e1.
  destruct (qbind_done _ _ _ _ _ _ _ _ _ H1) as [[st2 key] [e2 [f2 [A2 H2]]]]. clear H1.
  destruct (hkdf_calm _ _ _ _ _ _ _ _ _ A2) as [-> [n2 N2]].
  destruct (negb (is_ok st2)) eqn:O2. { destruct (qret_done _ _ _ _ _ _ _ H2) as [Q _]. injection Q as _ Q. destruct (N _ O2 (eq_sym Q)). }
  pose proof (ok_code _ O2) as Q2. subst st2. pose proof (hrel_ok _ _ (hkdf_rel _ _ _ _ _ _ _ _ _ _ _ A2)) as E2. subst e2.
  destruct (qbind_done _ _ _ _ _ _ _ _ _ H2) as [[st3 nonce] [e3 [f3 [A3 H3]]]]. clear H2.
  destruct (hkdf_calm _ _ _ _ _ _ _ _ _ A3) as [-> [n3 N3]].
  destruct (negb (is_ok st3)) eqn:O3. { destruct (qret_done _ _ _ _ _ _ _ H3) as [Q _]. injection Q as _ Q. destruct (N _ O3 (eq_sym Q)). }
  pose proof (ok_code _ O3) as Q3. subst st3. pose proof (hrel_ok _ _ (hkdf_rel _ _ _ _ _ _ _ _ _ _ _ A3)) as E3. subst e3.
  destruct (qbind_done _ _ _ _ _ _ _ _ _ H3) as [r4 [e4 [f4 [A4 H4]]]]. clear H3.
  destruct r4 as [st4|c].
  { destruct (create_crypter_rel _ _ _ _ _ _ _ _ A4) as [X _]. destruct (qret_done _ _ _ _ _ _ _ H4) as [Q _]. injection Q as _ Q.
    destruct (X (eq_sym Q)). }
  exists (n1 + (n2 + n3))%nat. eexists. split; [|intros rest; unfold half_update_key_q; rewrite !repeat_app, <- !app_assoc].
  2: { rewrite (qbind_run _ _ _ _ _ _ _ _ _ (N1 _)). rewrite O1. rewrite (qbind_run _ _ _ _ _ _ _ _ _ (N2 _)). rewrite O2.
       rewrite (qbind_run _ _ _ _ _ _ _ _ _ (N3 _)). rewrite O3.
       rewrite (qbind_run _ _ _ _ _ _ _ _ _ (create_fails _ _ _ _ _ _ _ A4 rest)). reflexivity. }
  reflexivity.
Qed.

Definition textless (e : errs) : errs := {| e_queue := e_queue e; e_next := e_next e; e_text := []; e_raised := e_raised e |}.

Lemma handle_lost : forall P lib x r e y e' fs', handle_result_q P lib x r e [] = Done (((y, kOk), e'), fs') ->
  hc_epoch (cx_in y) <> hc_epoch (cx_in x) ->
  exists n x2, inbound_broken x2 = true /\ forall rest,
    handle_result_q P lib x r e (repeat false n ++ true :: rest) = Done (((x2, kInternal), textless (taken (raise e))), rest).
Proof.
  intros P lib x r e y e' fs' H EP. unfold handle_result_q in *. cbn zeta in *.
  destruct r as [st|r].
  { destruct (qret_done _ _ _ _ _ _ _ H) as [Q _]. injection Q as Q _. subst y. destruct (EP eq_refl). }
  destruct (qbind_done _ _ _ _ _ _ _ _ _ H) as [[z failed] [e1 [f1 [A W]]]]. clear H.
  destruct (r_key_update r).
  2: { exfalso. destruct (qret_done _ _ _ _ _ _ _ A) as [Q _]. injection Q as Q1 Q2. subst z failed. cbv iota in W.
       apply EP. clear EP A. revert W. destruct (cx_phase (set_phase x (cx_phase x) (r_expecting r))) eqn:Ph; intros W;
       [destruct (r_ticket r && (kMaxNumTicketsToProcess <=? r_num r)).. |];
       try (destruct (qbind_done _ _ _ _ _ _ _ _ _ W) as [w [e2 [f2 [B W1]]]]; destruct (quiet_done _ _ _ _ _ _ _ B) as [Z _];
            destruct (qret_done _ _ _ _ _ _ _ W1) as [Q _]; injection Q as Q; subst y; unfold lift in Z;
            match type of Z with match ?t with _ => _ end = _ => destruct t as [v|u|] eqn:S; try discriminate Z end;
            injection Z as <- _; cbn [cx_in set_phase]; rewrite (send_tickets_in _ _ S); destruct (r_ticket r); reflexivity);
       destruct (qret_done _ _ _ _ _ _ _ W) as [Q _]; injection Q as Q; subst y; try destruct (r_ticket r); reflexivity. }
  destruct (qbind_done _ _ _ _ _ _ _ _ _ A) as [[h st1] [e2 [f2 [B A1]]]]. clear A.
  destruct (qret_done _ _ _ _ _ _ _ A1) as [Q _]. injection Q as Q1 Q2. subst z failed. clear A1.
  destruct (negb (is_ok st1)) eqn:O.
  { destruct (qbind_done _ _ _ _ _ _ _ _ _ W) as [w [e3 [f3 [_ W1]]]]. destruct (qret_done _ _ _ _ _ _ _ W1) as [Q _]. discriminate Q. }
  pose proof (ok_code _ O) as Q1. subst st1. destruct (update_told _ _ _ _ _ _ _ B) as [n [h2 [F U]]].
  exists n. eexists. split; [|intros rest; erewrite qbind_run; [|rewrite (qbind_run _ _ _ _ _ _ _ _ _ (U rest)); reflexivity]; reflexivity].
  exact F.
Qed.

Lemma lift_any : forall A (o : outcome A) e a e1 f1, quiet (lift o) e [] = Done ((a, e1), f1) ->
  f1 = [] /\ e1 = e /\ forall fs, quiet (lift o) e fs = Done ((a, e), fs).
Proof.
  intros A o e a e1 f1 H. unfold quiet, lift, bind, ret in *. destruct o as [v|u|]; [|discriminate..]. injection H as <- <- <-.
  repeat split.
Qed.

Lemma decrypt_epoch : forall P h aad ct out e fs h' s out' e' fs',
  half_decrypt_q P h aad ct out e fs = Done (((h', s, out'), e'), fs') -> hc_epoch h' = hc_epoch h.
Proof.
  intros P h aad ct out e fs h' s out' e' fs' H. unfold half_decrypt_q in H.
  destruct (hc_aead h) as [c|]; [|destruct (qret_done _ _ _ _ _ _ _ H) as [Q _]; injection Q as Q _ _; subst h'; reflexivity].
  destruct (hc_always_fail h || hc_overflowed h); [destruct (qret_done _ _ _ _ _ _ _ H) as [Q _]; injection Q as Q _ _; subst h'; reflexivity|].
  destruct (qbind_done _ _ _ _ _ _ _ _ _ H) as [[nonce h1] [e1 [f1 [A W]]]]. clear H. destruct (quiet_done _ _ _ _ _ _ _ A) as [Z _].
  destruct (qbind_done _ _ _ _ _ _ _ _ _ W) as [[[c1 s1] o1] [e2 [f2 [_ W1]]]]. destruct (qret_done _ _ _ _ _ _ _ W1) as [Q _]. injection Q as Q _ _. subst h'.
  unfold lift in Z. destruct (nonce_mask h) as [v|u|] eqn:M; try discriminate Z. injection Z as Z _. subst v. clear - M.
  unfold nonce_mask in M. cbn zeta in M.
  repeat match type of M with (if ?b then _ else _) = _ => destruct b end; try discriminate M. injection M as _ M. subst h1. reflexivity.
Qed.

Lemma unprotect_lost : forall P lib x hd pl buf x' n out e0 e1 f1,
  crypt_unprotect_q P lib x hd pl buf e0 [] = Done (((x', (S_OK, n), out), e1), f1) -> hc_epoch (cx_in x') <> hc_epoch (cx_in x) ->
  exists k x2 out2, inbound_broken x = false /\ inbound_broken x2 = true /\ forall rest,
    crypt_unprotect_q P lib x hd pl buf e0 (repeat false k ++ true :: rest) =
      Done (((x2, (S_INTERNAL_ERROR, 0), out2), textless (taken (raise e0))), rest).
Proof.
  intros P lib x hd pl buf x' n out e0 e1 f1 W EP.
  unfold crypt_unprotect_q in W |- *. cbn zeta in W |- *.
  destruct (cx_close x). { destruct (qret_done _ _ _ _ _ _ _ W) as [Q _]. discriminate Q. }
  destruct (qbind_done _ _ _ _ _ _ _ _ _ W) as [ov [e2 [f2 [A W1]]]]. clear W.
  destruct (lift_any _ _ _ _ _ _ A) as [-> [-> OV]]. clear A.
  destruct (_ <? ov) eqn:C1. { destruct (qret_done _ _ _ _ _ _ _ W1) as [Q _]. discriminate Q. }
  destruct (ov + _ <? _) eqn:C2. { destruct (qret_done _ _ _ _ _ _ _ W1) as [Q _]. discriminate Q. }
  destruct (negb (validate_header _ _)) eqn:C3. { destruct (qret_done _ _ _ _ _ _ _ W1) as [Q _]. discriminate Q. }
  destruct (qbind_done _ _ _ _ _ _ _ _ _ W1) as [[[h [st1 n1]] p] [e2 [f2 [A W2]]]]. clear W1.
  pose proof (decrypt_fail _ _ _ _ _ _ _ _ _ _ _ _ _ A) as [F G].
  destruct (decrypt_calm _ _ _ _ _ _ _ _ _ A) as [-> [k1 K1]].
  assert (HE : hc_epoch h = hc_epoch (cx_in x)) by exact (decrypt_epoch _ _ _ _ _ _ _ _ _ _ _ _ A).
  pose proof (decrypt_rel _ _ _ _ _ _ _ _ _ _ _ _ _ A) as D.
  destruct (negb (is_ok st1)) eqn:O.
  { destruct (qbind_done _ _ _ _ _ _ _ _ _ W2) as [z [e3 [f3 [_ W3]]]]. destruct (qret_done _ _ _ _ _ _ _ W3) as [Q _]. discriminate Q. }
  pose proof (ok_code _ O) as Q1. subst st1. destruct D as [->|[D _]]; [|destruct (D eq_refl)]. specialize (G eq_refl).
  destruct (scan_type _) as [[ty content]|] eqn:SC; [|destruct (qret_done _ _ _ _ _ _ _ W2) as [Q _]; discriminate Q].
  destruct (ty =? kTls13Alert) eqn:T1.
  { exfalso. destruct content as [|a [|b c]]; destruct (qbind_done _ _ _ _ _ _ _ _ _ W2) as [z [e3 [f3 [_ W3]]]];
      try (destruct (qret_done _ _ _ _ _ _ _ W3) as [Q _]; discriminate Q).
    destruct (b =? kTlsAlertCloseNotify); destruct (qret_done _ _ _ _ _ _ _ W3) as [Q _]; discriminate Q. }
  destruct (ty =? kTls13Handshake) eqn:T2.
  2: { exfalso. destruct (ty =? kTls13ApplicationData).
    - destruct (cx_expecting (set_in x h)); [destruct (qret_done _ _ _ _ _ _ _ W2) as [Q _]; discriminate Q|].
      destruct (qbind_done _ _ _ _ _ _ _ _ _ W2) as [y [e3 [f3 [Y W3]]]]. destruct (quiet_done _ _ _ _ _ _ _ Y) as [Z _].
      destruct (qret_done _ _ _ _ _ _ _ W3) as [Q _]. injection Q as Q _ _. apply EP. rewrite Q, <- HE. clear - Z.
      unfold lift in Z. destruct (cx_phase (set_in x h)).
      + injection Z as <- _. reflexivity.
      + destruct (send_tickets (set_in x h)) as [z|u|] eqn:S; cbn [obind] in Z; try discriminate Z. injection Z as <- _.
        cbn [cx_in set_phase]. rewrite (send_tickets_in _ _ S). reflexivity.
      + injection Z as <- _. reflexivity.
    - destruct (qbind_done _ _ _ _ _ _ _ _ _ W2) as [z [e3 [f3 [_ W3]]]]. destruct (qret_done _ _ _ _ _ _ _ W3) as [Q _]. discriminate Q. }
  destruct (qbind_done _ _ _ _ _ _ _ _ _ W2) as [[h1 r] [e3 [f3 [Y W3]]]]. clear W2.
  destruct (lift_any _ _ _ _ _ _ Y) as [-> [-> PM]]. clear Y.
  destruct (qbind_done _ _ _ _ _ _ _ _ _ W3) as [[y st2] [e4 [f4 [Y W4]]]]. clear W3.
  destruct (negb (is_ok st2)) eqn:O2. { destruct (qret_done _ _ _ _ _ _ _ W4) as [Q _]. discriminate Q. }
  pose proof (ok_code _ O2) as Q2. subst st2. destruct (qret_done _ _ _ _ _ _ _ W4) as [Q _]. injection Q as Q _ _. subst x'.
  assert (EP2 : hc_epoch (cx_in y) <> hc_epoch (cx_in (set_handler (set_in x h) h1))) by (intros E; apply EP; rewrite E; exact HE).
  destruct (handle_lost _ _ _ _ _ _ _ _ Y EP2) as [k2 [x2 [B2 U]]].
  exists (k1 + k2)%nat, x2. eexists. split; [exact G|]. split; [exact B2|]. intros rest. rewrite repeat_app, <- app_assoc.
  erewrite qbind_run; [|apply OV]. rewrite C1, C2. cbv iota. erewrite qbind_run; [|apply K1]. cbv beta iota. rewrite O, SC, T1, T2.
  erewrite qbind_run; [|apply PM]. cbv beta iota. erewrite qbind_run; [|apply U]. reflexivity.
Qed.

Lemma update_lost : forall P lib x hd pl buf x' n out q err next,
  cstep P lib x (CUnprotect hd pl buf) [] = Done (x', CUnprotected S_OK n out) -> hc_epoch (cx_in x') <> hc_epoch (cx_in x) ->
  exists fs x2 r e, cstep_q P lib x q (CUnprotect hd pl buf) fs (err :: next) = Done (x2, r, e) /\
    inbound_update_failed (CUnprotect hd pl buf) x x2 r /\ e_raised e = err /\ vanished e.
Proof.
  intros P lib x hd pl buf x' n out q err next H EP.
  pose proof (crypter_same P lib x q (CUnprotect hd pl buf) [] (err :: next)) as S. rewrite H in S.
  unfold cstep_q in S |- *. set (e0 := Build_errs _ _ _ _) in *.
  destruct (crypt_unprotect_q P lib x (IoBuf hd) pl (IoBuf buf) e0 []) as [[[[[y [st m]] o] e1] f1]|u|] eqn:W; cbn [obind] in S;
    [|discriminate S..]. injection S as S1 S2 S3 S4. subst y st m o. clear H.
  destruct (unprotect_lost _ _ _ _ _ _ _ _ _ _ _ _ W EP) as [k [x2 [out2 [B1 [B2 E]]]]].
  exists (repeat false k ++ [true]), x2. eexists _, _. rewrite (E []). cbn [obind]. split; [reflexivity|]. split; [|split; [reflexivity|split; reflexivity]].
  split; [exact B1|]. split; [exact B2|]. split; reflexivity.
Qed.
