(* Every key update of the peer can lose errors: the frame protector. *)
From Coq Require Import List NArith Bool.
From Verif Require Import Base Aead Hkdf HalfConn Options HsHandler Crypter FrameProt SpecTls SpecHs SpecRecord SpecRx CrypterRun SpecFrame FrameRun
  SpecAead HalfRun ErrQueue SpecErr ErrQueueSame ErrQueueProofs ErrCrypt SpecErrCrypt ErrCryptProofs ErrCryptEvery ErrFrame SpecErrFrame ErrFrameProofs.
Import ListNotations.
Local Open Scope N_scope.

Lemma create_calm : forall lib s key, calm (create_crypter_q lib s key).
Proof. intros. unfold create_crypter_q, create_aes_gcm_q, create_chacha_poly_q. calm_tac. Qed.
Lemma update_calm : forall P lib h, calm (half_update_key_q P lib h).
Proof.
  intros. unfold half_update_key_q, advance_secret_q, derive_key_q, derive_nonce_q. calm_tac; first [apply hkdf_calm|apply create_calm].
Qed.
Lemma new_text_calm : calm new_text.
Proof. intros e b e' fs' H. unfold new_text, ret in H. injection H as <- <- <-. split; [reflexivity|]. exists O. reflexivity. Qed.
Lemma handle_calm : forall P lib x r, calm (handle_result_q P lib x r).
Proof. intros. unfold handle_result_q. calm_tac; first [apply update_calm|apply new_text_calm]. Qed.
Lemma unprotect_calm : forall P lib x hd pl out, calm (crypt_unprotect_q P lib x hd pl out).
Proof. intros. unfold crypt_unprotect_q. calm_tac; first [apply decrypt_calm|apply handle_calm]. Qed.

Definition inbound_epoch (f : fprot) : N := hc_epoch (cx_in (fp_crypt f)).

Lemma uinto_lost : forall P lib f input buf e f' out n e' fs',
  fp_unprotect_into_q P lib f input buf e [] = Done (((f', kOk, out, n), e'), fs') -> inbound_epoch f' <> inbound_epoch f ->
  exists k f2 out2, receiving_broken f = false /\ receiving_broken f2 = true /\ forall rest,
    fp_unprotect_into_q P lib f input buf e (repeat false k ++ true :: rest) = Done (((f2, kInternal, out2, 0), textless (taken (raise e))), rest).
Proof.
  intros P lib f input buf e f' out n e' fs' W EP. unfold fp_unprotect_into_q in *.
  destruct (qbind_done _ _ _ _ _ _ _ _ _ W) as [m [e1 [f1 [A W1]]]]. clear W. destruct (lift_any _ _ _ _ _ _ A) as [-> [-> L1]]. clear A.
  destruct (m =? 0) eqn:M. { destruct (qret_done _ _ _ _ _ _ _ W1) as [Q _]. discriminate Q. }
  destruct (qbind_done _ _ _ _ _ _ _ _ _ W1) as [r [e2 [f2 [A W2]]]]. clear W1. destruct (lift_any _ _ _ _ _ _ A) as [-> [-> L2]]. clear A.
  destruct r as [s|[hdr [vs on]]].
  { destruct (qret_done _ _ _ _ _ _ _ W2) as [Q _]. injection Q as Q _ _ _. subst f'. destruct (EP eq_refl). }
  destruct (qbind_done _ _ _ _ _ _ _ _ _ W2) as [r [e3 [f3 [A W3]]]]. clear W2. destruct (lift_any _ _ _ _ _ _ A) as [-> [-> L3]]. clear A.
  destruct r as [s|[payload c]].
  { destruct (qret_done _ _ _ _ _ _ _ W3) as [Q _]. injection Q as Q _ _ _. subst f'. destruct (EP eq_refl). }
  destruct (qbind_done _ _ _ _ _ _ _ _ _ W3) as [[[x [cs w]] o] [e4 [f4 [A W4]]]]. clear W3. cbn zeta in W4.
  destruct cs; destruct (qret_done _ _ _ _ _ _ _ W4) as [Q _]; try discriminate Q. injection Q as Q _ _. subst f'. clear W4.
  destruct (unprotect_lost _ _ _ _ _ _ _ _ _ _ _ _ A EP) as [k [x2 [out2 [B1 [B2 U]]]]].
  exists k, (with_crypt f x2), out2. split; [exact B1|]. split; [exact B2|]. intros rest.
  erewrite qbind_run; [|apply L1]. rewrite M. erewrite qbind_run; [|apply L2]. cbv beta iota. erewrite qbind_run; [|apply L3]. cbv beta iota.
  erewrite qbind_run; [|apply U]. reflexivity.
Qed.

Lemma uloop_lost : forall P lib al fuel f c rem acc e f' bs e' fs', e_text e = [] ->
  unprotect_loop_q fuel P lib al f c rem acc e [] = Done (((f', kOk, bs), e'), fs') -> inbound_epoch f' <> inbound_epoch f ->
  exists k f2, receiving_broken f = false /\ receiving_broken f2 = true /\ forall rest,
    unprotect_loop_q fuel P lib al f c rem acc e (repeat false k ++ true :: rest) = Done (((f2, kInternal, []), textless (taken (raise e))), rest).
Proof.
  intros P lib al. induction fuel as [|fuel IH]; intros f c rem acc e f' bs e' fs' T W EP; cbn [unprotect_loop_q] in W |- *;
    destruct (qbind_done _ _ _ _ _ _ _ _ _ W) as [o [e1 [f1 [A W1]]]]; clear W; destruct (lift_any _ _ _ _ _ _ A) as [-> [-> L1]]; clear A;
    (destruct (rem <? o) eqn:M; [destruct (qret_done _ _ _ _ _ _ _ W1) as [Q _]; injection Q as Q _; subst f'; destruct (EP eq_refl)|]);
    [discriminate W1|].
  destruct (qbind_done _ _ _ _ _ _ _ _ _ W1) as [r [e2 [f2 [A W2]]]]. clear W1. destruct (lift_any _ _ _ _ _ _ A) as [-> [-> L2]]. clear A.
  destruct r as [s|[hdr [vs on]]].
  { destruct (qret_done _ _ _ _ _ _ _ W2) as [Q _]. injection Q as Q _ _. subst f'. destruct (EP eq_refl). }
  cbn zeta in W2.
  destruct (qbind_done _ _ _ _ _ _ _ _ _ W2) as [r [e3 [f3 [A W3]]]]. clear W2. destruct (lift_any _ _ _ _ _ _ A) as [-> [-> L3]]. clear A.
  destruct r as [s|[payload c1]].
  { destruct (qret_done _ _ _ _ _ _ _ W3) as [Q _]. injection Q as Q _ _. subst f'. destruct (EP eq_refl). }
  unfold fp_alloc in W3.
  destruct (qbind_done _ _ _ _ _ _ _ _ _ W3) as [[[x [cs w]] mem] [e4 [f4 [A W4]]]]. clear W3.
  destruct cs; try (destruct (qret_done _ _ _ _ _ _ _ W4) as [Q _]; discriminate Q).
  destruct (N.eq_dec (hc_epoch (cx_in x)) (inbound_epoch f)) as [EQ|NE].
  - pose proof (unprotect_urel _ _ f _ _ _ _ _ _ _ _ _ _ _ T A) as [_ K]. destruct (K eq_refl) as [-> KB].
    destruct (unprotect_calm _ _ _ _ _ _ _ _ _ _ A) as [-> [k1 K1]].
    apply IH in W4; [|exact T|intros Z; apply EP; rewrite Z; exact EQ]. destruct W4 as [k2 [f2 [B1 [B2 U]]]].
    exists (k1 + k2)%nat, f2. split; [rewrite <- KB; exact B1|]. split; [exact B2|]. intros rest. rewrite repeat_app, <- app_assoc.
    erewrite qbind_run; [|apply L1]. rewrite M. erewrite qbind_run; [|apply L2]. cbv beta iota zeta. erewrite qbind_run; [|apply L3].
    cbv beta iota. unfold fp_alloc. erewrite qbind_run; [|apply K1]. cbv beta iota. apply U.
  - destruct (unprotect_lost _ _ _ _ _ _ _ _ _ _ _ _ A NE) as [k [x2 [out2 [B1 [B2 U]]]]].
    exists k. eexists. split; [exact B1|]. split; [|intros rest;
      erewrite qbind_run; [|apply L1]; rewrite M; erewrite qbind_run; [|apply L2]; cbv beta iota zeta; erewrite qbind_run; [|apply L3];
      cbv beta iota; unfold fp_alloc; erewrite qbind_run; [|apply U]; reflexivity].
    rewrite destroy_all. exact B2.
Qed.

Lemma funprotect_lost : forall P lib al f input e f' bs e' fs', e_text e = [] ->
  fp_unprotect_q P lib al f input e [] = Done (((f', kOk, bs), e'), fs') -> inbound_epoch f' <> inbound_epoch f ->
  exists k f2, receiving_broken f = false /\ receiving_broken f2 = true /\ forall rest,
    fp_unprotect_q P lib al f input e (repeat false k ++ true :: rest) = Done (((f2, kInternal, []), textless (taken (raise e))), rest).
Proof.
  intros P lib al f input e f' bs e' fs' T W EP. unfold fp_unprotect_q in *. cbn zeta in *.
  destruct (qbind_done _ _ _ _ _ _ _ _ _ W) as [o [e1 [f1 [A W1]]]]. clear W. destruct (lift_any _ _ _ _ _ _ A) as [-> [-> L1]]. clear A.
  destruct (total_len input <? o) eqn:M. { destruct (qret_done _ _ _ _ _ _ _ W1) as [Q _]. discriminate Q. }
  destruct (uloop_lost _ _ _ _ _ _ _ _ _ _ _ _ _ T W1 EP) as [k [f2 [B1 [B2 U]]]].
  exists k, f2. split; [exact B1|]. split; [exact B2|]. intros rest. erewrite qbind_run; [|apply L1]. rewrite M. apply U.
Qed.

Lemma protector_lost : forall P lib al f op f' r q err next,
  match op with FUnprotect _ | FUnprotectInto _ _ => True | _ => False end ->
  fstep P lib al f op [] = Done (f', r) -> status_of r = kOk -> hc_epoch (cx_in (fp_crypt f')) <> hc_epoch (cx_in (fp_crypt f)) ->
  exists fs f2 r2 e, fstep_q P lib al f q op fs (err :: next) = Done (f2, r2, e) /\
    key_update_failed op f f2 r2 /\ e_raised e = err /\ vanished e.
Proof.
  intros P lib al f op f' r q err next U H O EP.
  pose proof (protector_same P lib al f q op [] (err :: next)) as S. rewrite H in S. clear H.
  destruct op as [input|input id buf|input|input buf]; try contradiction U; unfold fstep_q in S |- *; set (e0 := Build_errs _ _ _ _) in *.
  - destruct (fp_unprotect_q P lib al f input e0 []) as [[[[[g st] bs] e1] f1]|u|] eqn:W; cbn [obind] in S; [|discriminate S..].
    injection S as S1 S2. subst g r. cbn [status_of] in O. subst st.
    destruct (funprotect_lost _ _ _ _ _ e0 _ _ _ _ eq_refl W EP) as [k [f2 [B1 [B2 E]]]].
    exists (repeat false k ++ [true]), f2. eexists _, _. rewrite (E []). cbn [obind]. split; [reflexivity|]. split; [|split; [reflexivity|split; reflexivity]].
    split; [exact B1|]. split; [exact B2|]. split; [reflexivity|exact I].
  - destruct (fp_unprotect_into_q P lib f input (IoBuf buf) e0 []) as [[[[[[g st] o] n] e1] f1]|u|] eqn:W; cbn [obind] in S; [|discriminate S..].
    injection S as S1 S2. subst g r. cbn [status_of] in O. subst st.
    destruct (uinto_lost _ _ _ _ _ _ _ _ _ _ _ W EP) as [k [f2 [out2 [B1 [B2 E]]]]].
    exists (repeat false k ++ [true]), f2. eexists _, _. rewrite (E []). cbn [obind]. split; [reflexivity|]. split; [|split; [reflexivity|split; reflexivity]].
    split; [exact B1|]. split; [exact B2|]. split; [reflexivity|exact I].
Qed.
