(* Proofs for C91: with an AES-GCM suite the choice of the SSL library makes no
   difference at all, library failures included. *)
From Coq Require Import List NArith Bool.
From Verif Require Import Base Aead Hkdf HalfConn Options HsHandler Crypter FrameProt FrameRun ConcTag.
Import ListNotations.
Local Open Scope N_scope.

(* The same computation, whose results all satisfy [Q]. *)
Definition eqp {A} (Q : A -> Prop) (m1 m2 : M A) : Prop := (forall fs, m1 fs = m2 fs) /\ post m1 Q.

Lemma eqp_refl : forall A (Q : A -> Prop) m, post m Q -> eqp Q m m.
Proof. intros A Q m H. split; auto. Qed.
Lemma eqp_ret : forall A (Q : A -> Prop) a, Q a -> eqp Q (ret a) (ret a).
Proof. intros A Q a H. apply eqp_refl, post_ret, H. Qed.
Lemma eqp_any : forall A (m : M A), eqp (fun _ => True) m m.
Proof. intros A m. apply eqp_refl. intros fs a fs' _. exact I. Qed.
Lemma eqp_bind : forall A B (R : A -> Prop) (Q : B -> Prop) m1 m2 k1 k2, eqp R m1 m2 ->
  (forall a, R a -> eqp Q (k1 a) (k2 a)) -> eqp Q (bind m1 k1) (bind m2 k2).
Proof.
  intros A B R Q m1 m2 k1 k2 [E H] K. split.
  - intros fs. unfold bind. rewrite <- E. destruct (m1 fs) as [[a fs1]|u|] eqn:Em; auto. apply (K a (H _ _ _ Em)).
  - intros fs b fs' Eb. unfold bind in Eb. destruct (m1 fs) as [[a fs1]|u|] eqn:Em; try discriminate.
    destruct (K a (H _ _ _ Em)) as [_ K2]. exact (K2 _ _ _ Eb).
Qed.
Lemma eqp_lift : forall A B (Q : B -> Prop) (o : outcome A) k1 k2,
  (forall a, o = Done a -> eqp Q (k1 a) (k2 a)) -> eqp Q (bind (lift o) k1) (bind (lift o) k2).
Proof.
  intros A B Q o k1 k2 K. eapply eqp_bind; [apply (eqp_refl _ (fun a => o = Done a)), post_lift; auto|]. exact K.
Qed.
Lemma eqp_step : forall A B (Q : B -> Prop) (m : M A) k1 k2,
  (forall a, eqp Q (k1 a) (k2 a)) -> eqp Q (bind m k1) (bind m k2).
Proof. intros. eapply eqp_bind; [apply eqp_any|]. auto. Qed.

Definition aes (h : half) : Prop := hc_suite h <> CHACHA20_POLY1305_SHA256.

Section Aes.
Variable P : prims.
Variables lib1 lib2 : ssl_lib.

Lemma update_aes : forall h, aes h ->
  eqp (fun r => aes (fst r)) (half_update_key P lib1 h) (half_update_key P lib2 h).
Proof.
  intros h Hh. unfold half_update_key. apply eqp_step. intros [s1 secret]. destruct (negb _); [apply eqp_ret; exact Hh|].
  apply eqp_step. intros [s2 key]. destruct (negb _); [apply eqp_ret; exact Hh|].
  apply eqp_step. intros [s3 nonce]. destruct (negb _); [apply eqp_ret; exact Hh|].
  unfold create_crypter. unfold aes in Hh. destruct (hc_suite h) eqn:Es; [| |contradiction Hh; reflexivity];
    apply eqp_step; intros [st|c]; apply eqp_ret; unfold aes; cbn [fst with_keys hc_suite]; try rewrite Es; discriminate.
Qed.

Lemma decrypt_suite : forall h aad ct out, post (half_decrypt P h aad ct out) (fun r => hc_suite (fst (fst r)) = hc_suite h).
Proof.
  intros h aad ct out. unfold half_decrypt. destruct (hc_aead h) as [c|]; [|apply post_ret; reflexivity].
  destruct (_ || _); [apply post_ret; reflexivity|].
  apply (post_bind2 _ _ _ _ (fun r => hc_suite (snd r) = hc_suite h)).
  - apply post_lift. intros [n h'] E. unfold nonce_mask in E. destruct (_ <? 8); [discriminate|]. injection E as _ <-. reflexivity.
  - intros [n h'] E. cbn [snd] in E. apply post_bind. intros [[c' st] o]. apply post_ret. exact E.
Qed.

Lemma protect_in : forall x t pt out, post (crypt_protect P x t pt out) (fun r => cx_in (fst (fst r)) = cx_in x).
Proof.
  intros x t pt out. unfold crypt_protect. destruct (_ <? _); [apply post_ret; reflexivity|].
  apply post_bind. intros o. destruct (_ <? _); [apply post_ret; reflexivity|]. apply post_bind. intros tag.
  destruct out as [buf|n]; [|apply post_ret; reflexivity]. apply post_bind. intros [[h [st k]] tail].
  destruct (negb _); [apply post_bind; intros r|]; apply post_ret; reflexivity.
Qed.

Definition aes_x (x : crypt) : Prop := aes (cx_in x).
Lemma send_in : forall x x', send_tickets x = Done x' -> cx_in x' = cx_in x.
Proof.
  intros x x' E. unfold send_tickets in E. destruct (get_stored_tickets (cx_handler x)) as [[h r]|u|]; cbn [obind] in E; try discriminate.
  destruct r; injection E as <-; reflexivity.
Qed.

Lemma result_aes : forall x r, aes_x x ->
  eqp (fun q => aes_x (fst q)) (handle_result P lib1 x r) (handle_result P lib2 x r).
Proof.
  intros x [st|r] Hx; cbn [handle_result]; [apply eqp_ret; exact Hx|].
  apply (eqp_bind _ _ (fun q => aes_x (fst q))).
  - destruct (r_key_update r); [|apply eqp_ret; exact Hx].
    eapply eqp_bind; [apply update_aes; exact Hx|]. intros [h st] Hh. apply eqp_ret. exact Hh.
  - intros [y failed] Hy. cbn [fst] in Hy. destruct failed; [apply eqp_ret; exact Hy|].
    apply eqp_refl. destruct (cx_phase y); [| |apply post_ret; exact Hy].
    + destruct (r_ticket r); cbn [andb]; [|apply post_ret; exact Hy].
      destruct (_ <=? _); [|apply post_ret; exact Hy].
      apply (post_bind2 _ _ _ _ aes_x); [apply post_lift; intros z Ez; unfold aes_x; rewrite (send_in _ _ Ez); exact Hy|].
      intros z Hz. apply post_ret. exact Hz.
    + destruct (_ && _); [|apply post_ret; exact Hy].
      apply (post_bind2 _ _ _ _ aes_x); [apply post_lift; intros z Ez; unfold aes_x; rewrite (send_in _ _ Ez); exact Hy|].
      intros z Hz. apply post_ret. exact Hz.
Qed.

Lemma unprotect_aes : forall x hdr payload out, aes_x x ->
  eqp (fun q => aes_x (fst (fst q))) (crypt_unprotect P lib1 x hdr payload out) (crypt_unprotect P lib2 x hdr payload out).
Proof.
  intros x hdr payload out Hx. unfold crypt_unprotect. destruct (cx_close x); [apply eqp_ret; exact Hx|].
  apply eqp_step. intros o. destruct (_ <? o); [apply eqp_ret; exact Hx|]. destruct (_ <? _); [apply eqp_ret; exact Hx|].
  destruct (negb _); [apply eqp_ret; exact Hx|]. eapply eqp_bind; [apply eqp_refl, decrypt_suite|].
  intros [[h [st n]] pl] Hh. cbn [fst] in Hh.
  assert (Hy : aes_x (set_in x h)) by (unfold aes_x, aes; cbn [set_in cx_in]; rewrite Hh; exact Hx).
  destruct (negb _); [apply eqp_step; intros z; apply eqp_ret; exact Hy|].
  destruct (scan_type _) as [[ty content]|]; [|apply eqp_ret; exact Hy].
  destruct (ty =? kTls13Alert).
  { destruct content as [|a [|d r]]; apply eqp_step; intros z; [apply eqp_ret; exact Hy..|]. destruct (d =? _); apply eqp_ret; exact Hy. }
  destruct (ty =? kTls13Handshake).
  { apply eqp_step. intros [hd r]. eapply eqp_bind; [apply result_aes; exact Hy|]. intros [y s] Hs. cbn [fst] in Hs.
    destruct (negb _); apply eqp_ret; exact Hs. }
  destruct (ty =? kTls13ApplicationData); [|apply eqp_step; intros z; apply eqp_ret; exact Hy].
  destruct (cx_expecting _); [apply eqp_ret; exact Hy|]. apply eqp_lift. intros y Ey. apply eqp_ret. cbn [fst].
  destruct (cx_phase (set_in x h)); try (injection Ey as <-; exact Hy).
  destruct (send_tickets (set_in x h)) as [z|u|] eqn:Ez; cbn [obind] in Ey; try discriminate. injection Ey as <-.
  unfold aes_x. change (cx_in (set_phase z DONE (cx_expecting z))) with (cx_in z). rewrite (send_in _ _ Ez). exact Hy.
Qed.

Definition aes_f (f : fprot) : Prop := aes_x (fp_crypt f).

Lemma protect_loop_aes : forall fuel f c rem first out index id, aes_f f ->
  post (protect_loop fuel P f c rem first out index id) (fun r => aes_f (fst (fst r))).
Proof.
  induction fuel as [|fuel IH]; intros f c rem first out index id Hf; cbn [protect_loop];
    (destruct (negb _); [apply post_ret; exact Hf|]); [intros fs a fs' E; discriminate|].
  apply post_bind. intros [chunk c']. eapply post_bind2; [apply protect_in|]. intros [[x [st w]] tail] Hx. cbn [fst] in Hx.
  assert (Hy : aes_x x) by (unfold aes_x; rewrite Hx; exact Hf).
  destruct st; try (apply post_ret; exact Hy). apply post_bind. intros o. destruct (negb _); [apply post_ret; exact Hy|].
  apply IH. exact Hy.
Qed.
Lemma protect_into_aes : forall f input id out, aes_f f -> post (fp_protect_into P f input id out) (fun r => aes_f (fst (fst r))).
Proof.
  intros f input id out Hf. unfold fp_protect_into. destruct out as [buf|n].
  - eapply post_bind2; [apply protect_loop_aes; exact Hf|]. intros [[g st] b] Hg. apply post_ret. exact Hg.
  - apply post_bind. intros [chunk c]. eapply post_bind2; [apply protect_in|]. intros [[x [st w]] o] Hx. cbn [fst] in Hx.
    apply post_ret. unfold aes_f. cbn [fst fp_destroy with_crypt fp_crypt]. unfold aes_x. rewrite Hx. exact Hf.
Qed.

Lemma destroys_crypt : forall acc f, fp_crypt (fold_left (fun f b => fp_destroy f (fb_id b)) acc f) = fp_crypt f.
Proof. induction acc as [|b acc IH]; intros f; [reflexivity|]. cbn [fold_left]. rewrite IH. reflexivity. Qed.

Lemma unprotect_loop_aes : forall al fuel f c rem acc, aes_f f ->
  eqp (fun r => aes_f (fst (fst r))) (unprotect_loop fuel P lib1 al f c rem acc) (unprotect_loop fuel P lib2 al f c rem acc).
Proof.
  intros al. induction fuel as [|fuel IH]; intros f c rem acc Hf; cbn [unprotect_loop]; apply eqp_step; intros o;
    (destruct (_ <? _); [apply eqp_ret; exact Hf|]); [split; [reflexivity|intros fs a fs' E; discriminate]|].
  apply eqp_step. intros [st|[hdr [vs on]]]; [apply eqp_ret; exact Hf|]. cbn zeta.
  apply eqp_step. intros [st|[payload c']]; [apply eqp_ret; exact Hf|]. cbn [fp_alloc]. cbn [fp_crypt].
  eapply eqp_bind; [apply unprotect_aes; exact Hf|]. intros [[x [st w]] mem] Hx. cbn [fst] in Hx.
  destruct st; try (apply eqp_ret; cbn [fst]; unfold aes_f; rewrite destroys_crypt; exact Hx). apply IH. exact Hx.
Qed.

Lemma obind_ext : forall A B (o1 o2 : outcome A) (k : A -> outcome B), o1 = o2 -> obind o1 k = obind o2 k.
Proof. intros A B o1 o2 k ->. reflexivity. Qed.

Lemma fstep_aes : forall al f op fs, aes_f f ->
  fstep P lib1 al f op fs = fstep P lib2 al f op fs /\
  forall f' r, fstep P lib1 al f op fs = Done (f', r) -> aes_f f'.
Proof.
  intros al f op fs Hf. destruct op as [input|input id buf|input|input buf]; cbn [fstep].
  - split; [reflexivity|]. intros f' r E. destruct (fp_protect P al f input fs) as [[[[g st] bs] fs']|u|] eqn:Ep; cbn [obind] in E; try discriminate.
    injection E as <- _.
    assert (Q : post (fp_protect P al f input) (fun r => aes_f (fst (fst r)))).
    { unfold fp_protect. apply post_bind. intros size. cbn [fp_alloc]. eapply post_bind2; [apply protect_into_aes; exact Hf|].
      intros [[g' s] o] Hg. cbn [fst] in Hg. destruct (negb _); apply post_ret; exact Hg. }
    exact (Q _ _ _ Ep).
  - split; [reflexivity|]. intros f' r E. destruct (fp_protect_into P f input id (IoBuf buf) fs) as [[[[g st] bs] fs']|u|] eqn:Ep; cbn [obind] in E; try discriminate.
    injection E as <- _. exact (protect_into_aes _ _ _ _ Hf _ _ _ Ep).
  - assert (Q : eqp (fun r => aes_f (fst (fst r))) (fp_unprotect P lib1 al f input) (fp_unprotect P lib2 al f input)).
    { unfold fp_unprotect. apply eqp_step. intros o. destruct (_ <? _); [apply eqp_ret; exact Hf|]. apply unprotect_loop_aes. exact Hf. }
    destruct Q as [Q1 Q2]. split; [apply obind_ext, Q1|]. intros f' r E.
    destruct (fp_unprotect P lib1 al f input fs) as [[[[g st] bs] fs']|u|] eqn:Ep; cbn [obind] in E; try discriminate.
    injection E as <- _. exact (Q2 _ _ _ Ep).
  - assert (Q : eqp (fun r => aes_f (fst (fst (fst r)))) (fp_unprotect_into P lib1 f input (IoBuf buf)) (fp_unprotect_into P lib2 f input (IoBuf buf))).
    { unfold fp_unprotect_into. apply eqp_step. intros n. destruct (n =? 0); [apply eqp_ret; exact Hf|].
      apply eqp_step. intros [st|[hdr [vs on]]]; [apply eqp_ret; exact Hf|]. apply eqp_step. intros [st|[payload c']]; [apply eqp_ret; exact Hf|].
      eapply eqp_bind; [apply unprotect_aes; exact Hf|]. intros [[x [st w]] o] Hx. cbn [fst] in Hx. destruct st; apply eqp_ret; exact Hx. }
    destruct Q as [Q1 Q2]. split; [apply obind_ext, Q1|]. intros f' r E.
    destruct (fp_unprotect_into P lib1 f input (IoBuf buf) fs) as [[[[[g st] bs] k] fs']|u|] eqn:Ep; cbn [obind] in E; try discriminate.
    injection E as <- _. exact (Q2 _ _ _ Ep).
Qed.

Lemma frun_aes : forall al ops f, aes_f f -> frun P lib1 al f ops = frun P lib2 al f ops.
Proof.
  intros al. induction ops as [|[op fs] ops IH]; intros f Hf; cbn [frun]; [reflexivity|].
  destruct (fstep_aes al f op fs Hf) as [E K]. rewrite <- E. destruct (fstep P lib1 al f op fs) as [[g r]|u|]; cbn [obind]; auto.
  rewrite (IH g (K _ _ eq_refl)). reflexivity.
Qed.

Lemma half_create_aes : forall s q k, s <> CHACHA20_POLY1305_SHA256 ->
  eqp (fun r => forall h, r = inr h -> hc_suite h = s) (half_create P lib1 s q k) (half_create P lib2 s q k).
Proof.
  intros s q k Hs. unfold half_create. destruct (negb _); [apply eqp_ret; discriminate|].
  apply eqp_step. intros [s1 key]. destruct (negb _); [apply eqp_ret; discriminate|].
  apply eqp_step. intros [s2 nonce]. destruct (negb _); [apply eqp_ret; discriminate|].
  unfold create_crypter. destruct s; [| |contradiction Hs; reflexivity];
    apply eqp_step; intros [st|c]; apply eqp_ret; intros h E; try discriminate; injection E as <-; reflexivity.
Qed.

Lemma fp_create_aes : forall a, ca_suite (fa_crypt a) <> CHACHA20_POLY1305_SHA256 ->
  eqp (fun r => forall f, r = inr f -> aes_f f) (fp_create P lib1 a) (fp_create P lib2 a).
Proof.
  intros a Hs. unfold fp_create. destruct (_ || _); [apply eqp_ret; discriminate|].
  apply (eqp_bind _ _ (fun r => forall x, r = inr x -> aes_x x)).
  - unfold crypt_create. cbn [ca_url ca_logger ca_sender ca_tls ca_suite ca_in_seq ca_in_secret ca_out_seq ca_out_secret].
    destruct (_ =? 0); [apply eqp_ret; discriminate|]. destruct (negb _); [apply eqp_ret; discriminate|]. cbn [negb].
    destruct (ca_tls (fa_crypt a)); [apply eqp_ret; discriminate|].
    eapply eqp_bind; [apply half_create_aes; exact Hs|]. intros [st|hin] Hin; [apply eqp_ret; discriminate|].
    eapply eqp_bind; [apply half_create_aes; exact Hs|]. intros [st|hout] Hout; [apply eqp_ret; discriminate|].
    apply eqp_ret. intros x E. injection E as <-. unfold aes_x, aes. cbn [cx_in]. rewrite (Hin _ eq_refl). exact Hs.
  - intros [st|x] Hx; [apply eqp_ret; discriminate|]. apply eqp_step. intros o. apply eqp_ret. intros f E. injection E as <-.
    exact (Hx x eq_refl).
Qed.
End Aes.
