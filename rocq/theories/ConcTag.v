(* What single accesses leave unchanged: the tag length and the identity of the
   AEAD crypters. *)
From Coq Require Import List NArith Bool Lia.
From Verif Require Import Base Aead Hkdf HalfConn Options HsHandler Crypter FrameProt Conc.
Import ListNotations.
Local Open Scope N_scope.

Definition post {A} (m : M A) (Q : A -> Prop) : Prop :=
  forall fs a fs', m fs = Done (a, fs') -> Q a.

Lemma post_ret : forall A (a : A) (Q : A -> Prop), Q a -> post (ret a) Q.
Proof. intros A a Q H fs b fs' E. injection E as <- _. exact H. Qed.
Lemma post_bind : forall A B (m : M A) (k : A -> M B) Q, (forall a, post (k a) Q) -> post (bind m k) Q.
Proof.
  intros A B m k Q H fs b fs' E. unfold bind in E. destruct (m fs) as [[a fs1]|u|]; try discriminate. eapply H; eassumption.
Qed.
Lemma post_bind2 : forall A B (m : M A) (k : A -> M B) (R : A -> Prop) Q,
  post m R -> (forall a, R a -> post (k a) Q) -> post (bind m k) Q.
Proof.
  intros A B m k R Q H1 H fs b fs' E. unfold bind in E. destruct (m fs) as [[a fs1]|u|] eqn:Em; try discriminate.
  eapply H; [eapply H1; exact Em|exact E].
Qed.
Lemma post_undef : forall A u (Q : A -> Prop), post (undef u) Q.
Proof. intros A u Q fs a fs' E. discriminate. Qed.

Ltac pst :=
  repeat (cbn beta iota zeta;
    match goal with
    | |- post (ret _) _ => apply post_ret
    | |- post (bind _ _) _ => apply post_bind; intros
    | |- post (undef _) _ => apply post_undef
    | |- post (if ?b then _ else _) _ => destruct b
    | |- post (match ?x with _ => _ end) _ => destruct x
    | |- post (let _ := _ in _) _ => cbv zeta
    end).

Definition keeps_tag (c : crypter) (r : crypter * cstatus * iovec) : Prop :=
  cr_tag_length (fst (fst r)) = cr_tag_length c.

Lemma encrypt_tag : forall P c n aad pt out, post (aead_encrypt P c n aad pt out) (keeps_tag c).
Proof.
  intros P c n aad pt out. unfold aead_encrypt.
  destruct (cr_impl c); unfold evp_encrypt, bssl_encrypt; pst; reflexivity.
Qed.
Lemma decrypt_tag : forall P c n aad ct out, post (aead_decrypt P c n aad ct out) (keeps_tag c).
Proof.
  intros P c n aad pt out. unfold aead_decrypt.
  destruct (cr_impl c); unfold evp_decrypt, bssl_decrypt; pst; reflexivity.
Qed.

Lemma create_tag : forall lib s key,
  post (create_crypter lib s key) (fun r => match r with inr c => cr_tag_length c = 16 | inl _ => True end).
Proof.
  intros lib s key. unfold create_crypter, create_aes_gcm, create_chacha_poly. destruct s, lib; pst; auto.
Qed.

(* The crypter object and its tag length. *)
Definition same_object (h h' : half) : Prop :=
  hc_epoch h' = hc_epoch h /\ half_tag_length h' = half_tag_length h /\ load_tag h' = load_tag h.

Lemma post_lift : forall A (o : outcome A) (Q : A -> Prop), (forall a, o = Done a -> Q a) -> post (lift o) Q.
Proof. intros A o Q H fs a fs' E. unfold lift in E. destruct o; try discriminate. injection E as <- _. auto. Qed.

Lemma nonce_mask_object : forall h n h', nonce_mask h = Done (n, h') ->
  hc_aead h' = hc_aead h /\ hc_epoch h' = hc_epoch h.
Proof.
  intros h n h' E. unfold nonce_mask in E. destruct (_ <? _); [discriminate|]. injection E as _ <-. auto.
Qed.

Lemma half_encrypt_object : forall P h aad pt out,
  post (half_encrypt P h aad pt out) (fun r => same_object h (fst (fst r))).
Proof.
  intros P h aad pt out. unfold half_encrypt. destruct (hc_aead h) as [c|] eqn:Ec.
  2:{ apply post_ret. repeat split. }
  destruct (_ || _). { apply post_ret. repeat split. }
  eapply post_bind2.
  { apply post_lift with (Q := fun r => nonce_mask h = Done r). intros a E. rewrite E. reflexivity. }
  intros [n h1] E. cbn beta iota. destruct (nonce_mask_object _ _ _ E) as [E1 E2].
  eapply post_bind2; [apply encrypt_tag|]. intros [[c1 st] o1] K. unfold keeps_tag in K. cbn [fst] in K.
  apply post_ret. cbn [fst]. unfold same_object, half_tag_length, load_tag, with_aead. cbn [hc_epoch hc_aead].
  rewrite E2, Ec, K. auto.
Qed.

Lemma half_decrypt_object : forall P h aad pt out,
  post (half_decrypt P h aad pt out) (fun r => same_object h (fst (fst r))).
Proof.
  intros P h aad pt out. unfold half_decrypt. destruct (hc_aead h) as [c|] eqn:Ec.
  2:{ apply post_ret. repeat split. }
  destruct (_ || _). { apply post_ret. repeat split. }
  eapply post_bind2.
  { apply post_lift with (Q := fun r => nonce_mask h = Done r). intros a E. rewrite E. reflexivity. }
  intros [n h1] E. cbn beta iota. destruct (nonce_mask_object _ _ _ E) as [E1 E2].
  eapply post_bind2; [apply decrypt_tag|]. intros [[c1 st] o1] K. unfold keeps_tag in K. cbn [fst] in K.
  apply post_ret. cbn [fst]. unfold same_object, half_tag_length, load_tag, with_aead. cbn [hc_epoch hc_aead].
  rewrite E2, Ec, K. auto.
Qed.

(* A key update installs a new object or keeps the old one; the tag length is
   16 if it was. *)
Lemma half_update_object : forall P lib h,
  post (half_update_key P lib h) (fun r =>
    hc_epoch h <= hc_epoch (fst r) /\
    (half_tag_length h = Done 16 -> half_tag_length (fst r) = Done 16)).
Proof.
  intros P lib h. unfold half_update_key.
  apply post_bind; intros [st secret]. destruct (negb _). { apply post_ret. cbn. split; [lia|auto]. }
  apply post_bind; intros [st1 key]. destruct (negb _). { apply post_ret. cbn. split; [lia|auto]. }
  apply post_bind; intros [st2 nonce]. destruct (negb _). { apply post_ret. cbn. split; [lia|auto]. }
  eapply post_bind2; [apply create_tag|]. intros [st3|c] K; apply post_ret; cbn; (split; [lia|]); auto.
  intros _. rewrite K. reflexivity.
Qed.
