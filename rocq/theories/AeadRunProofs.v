From Coq Require Import List NArith ZArith Bool Lia ZifyBool ZifyNat ZifyN.
From Verif Require Import Base BaseProofs Aead SpecAead AeadProofs AeadRun.
Import ListNotations.
Local Open Scope N_scope.

(* Equal outcomes, up to the internal cipher context. *)
Definition same_out {A} (o1 o2 : outcome (crypter * A)) : Prop :=
  match o1, o2 with
  | Done (c1, a1), Done (c2, a2) => same_config c1 c2 /\ a1 = a2
  | Undef u1, Undef u2 => u1 = u2
  | NoFuel, NoFuel => True
  | _, _ => False
  end.

Lemma same_config_sym : forall c c', same_config c c' -> same_config c' c.
Proof. unfold same_config. intuition congruence. Qed.

Lemma same_out_refl : forall A (o : outcome (crypter * A)), same_out o o.
Proof. intros A [[c a]|u|]; cbn; auto. split; [apply same_config_refl|reflexivity]. Qed.

Lemma init_nonce_key : forall e e' nonce, ev_key e = ev_key e' ->
  evp_init_nonce e nonce = evp_init_nonce e' nonce.
Proof. intros e e' nonce E. unfold evp_init_nonce. rewrite E. reflexivity. Qed.

Lemma same_config_ctx : forall c c', same_config c c' ->
  c' = with_ctx c (cr_ctx c') /\ ev_key (cr_ctx c') = ev_key (cr_ctx c).
Proof.
  intros [i a k n t e] [i' a' k' n' t' e'] (A & B & C & D & E & F). cbn in *. subst.
  split; [reflexivity|exact C].
Qed.

Definition out_of (o : outcome (crypter * cstatus * iovec * faults)) : outcome (crypter * ares) :=
  obind o (fun '((c, (st, n), out), _) =>
       Done (c, {| ar_st := st; ar_n := n; ar_out := out |})).

Ltac kill_same :=
  first [apply same_out_refl
        | cbn; split; [apply same_config_with_ctx; cbn; congruence|reflexivity]].

Lemma evp_encrypt_same : forall P c e nonce aad pt out fs, ev_key e = ev_key (cr_ctx c) ->
  same_out (out_of (evp_encrypt P c nonce aad pt out fs))
           (out_of (evp_encrypt P (with_ctx c e) nonce aad pt out fs)).
Proof.
  intros P [i a k n t e0] e nonce aad pt out fs He. unfold with_ctx; cbn [cr_impl cr_alg cr_key_length cr_nonce_length cr_tag_length cr_ctx] in *.
  unfold evp_encrypt, init_context_using_nonce, with_ctx; cbn [cr_impl cr_alg cr_key_length cr_nonce_length cr_tag_length cr_ctx].
  destruct (negb (lenN nonce =? kAeadNonceSize)).
  { cbn. repeat split; assumption. }
  rewrite (init_nonce_key e e0 nonce He).
  destruct fs as [|[|] fs]; unfold bind, ssl, ret; cbn [negb is_ok code_eqb];
    try (apply same_out_refl); cbn; repeat split; assumption.
Qed.

Lemma evp_decrypt_same : forall P c e nonce aad ct out fs, ev_key e = ev_key (cr_ctx c) ->
  same_out (out_of (evp_decrypt P c nonce aad ct out fs))
           (out_of (evp_decrypt P (with_ctx c e) nonce aad ct out fs)).
Proof.
  intros P [i a k n t e0] e nonce aad pt out fs He. unfold with_ctx; cbn [cr_impl cr_alg cr_key_length cr_nonce_length cr_tag_length cr_ctx] in *.
  unfold evp_decrypt, init_context_using_nonce, with_ctx; cbn [cr_impl cr_alg cr_key_length cr_nonce_length cr_tag_length cr_ctx].
  cbn zeta. destruct (total_len pt <? kAeadTagSize).
  { cbn. repeat split; assumption. }
  destruct (negb (lenN nonce =? kAeadNonceSize)).
  { cbn. repeat split; assumption. }
  rewrite (init_nonce_key e e0 nonce He).
  destruct fs as [|[|] fs]; unfold bind, ssl, ret; cbn [negb is_ok code_eqb];
    try (apply same_out_refl); cbn; repeat split; assumption.
Qed.

Ltac split_all :=
  repeat match goal with
  | |- context [match ?x with _ => _ end] => destruct x
  end.

Lemma bssl_encrypt_same : forall P c e nonce aad pt out fs, ev_key e = ev_key (cr_ctx c) ->
  same_out (out_of (bssl_encrypt P c nonce aad pt out fs))
           (out_of (bssl_encrypt P (with_ctx c e) nonce aad pt out fs)).
Proof.
  intros P c e nonce aad pt out fs He.
  pose proof (same_config_with_ctx c e He) as Hc.
  unfold bssl_encrypt. cbn [with_ctx cr_alg cr_nonce_length cr_tag_length cr_ctx].
  rewrite (init_nonce_key e (cr_ctx c) nonce He). cbn zeta.
  destruct (negb (lenN nonce =? cr_nonce_length c)); [split; [exact Hc|reflexivity]|].
  destruct (checked_len pt 0); [|split; [exact Hc|reflexivity]].
  destruct (iov_len out <? wrap64 (cr_tag_length c + n)); [split; [exact Hc|reflexivity]|].
  destruct (collect_checked aad []); [|split; [exact Hc|reflexivity]].
  set (s := evp_xor _ _ _ _ ++ _). clearbody s.
  unfold out_of, bind, ssl, ret, lift.
  destruct fs as [|[|] fs]; cbn [negb];
    [destruct (write_at out 0 s)|destruct (zero_out out)|destruct (write_at out 0 s)];
    cbn [obind same_out]; auto.
Qed.

Lemma bssl_decrypt_same : forall P c e nonce aad ct out fs, ev_key e = ev_key (cr_ctx c) ->
  same_out (out_of (bssl_decrypt P c nonce aad ct out fs))
           (out_of (bssl_decrypt P (with_ctx c e) nonce aad ct out fs)).
Proof.
  intros P c e nonce aad ct out fs He.
  pose proof (same_config_with_ctx c e He) as Hc.
  unfold bssl_decrypt. cbn [with_ctx cr_alg cr_nonce_length cr_tag_length cr_ctx].
  rewrite (init_nonce_key e (cr_ctx c) nonce He). cbn zeta.
  destruct (negb (lenN nonce =? cr_nonce_length c)); [split; [exact Hc|reflexivity]|].
  destruct (checked_len ct 0); [|split; [exact Hc|reflexivity]].
  destruct (n <? kAeadTagSize); [split; [exact Hc|reflexivity]|].
  destruct (iov_len out <? n - kAeadTagSize); [split; [exact Hc|reflexivity]|].
  destruct (collect_checked aad []); [|split; [exact Hc|reflexivity]].
  set (s := evp_xor _ _ _ _). clearbody s. set (t := bytes_eqb _ _). clearbody t.
  unfold out_of, bind, ssl, ret, lift.
  destruct fs as [|[|] fs]; destruct t; cbn [negb andb];
    try destruct (write_at out 0 s); try destruct (zero_out out);
    cbn [obind same_out]; auto.
Qed.

Lemma astep_same : forall P c c' op fs, same_config c c' ->
  same_out (astep P c op fs) (astep P c' op fs).
Proof.
  intros P c c' op fs H. destruct (same_config_ctx _ _ H) as [E K]. rewrite E.
  destruct op as [nonce aad pt out|nonce aad ct out]; unfold astep, aead_encrypt, aead_decrypt;
    cbn [with_ctx cr_impl]; destruct (cr_impl c).
  - apply evp_encrypt_same; exact K.
  - apply evp_encrypt_same; exact K.
  - apply bssl_encrypt_same; exact K.
  - apply evp_decrypt_same; exact K.
  - apply evp_decrypt_same; exact K.
  - apply bssl_decrypt_same; exact K.
Qed.

(* ------------------------------------------------------------------ *)
(* Every call keeps the configuration, whatever its arguments. *)

Lemma bind_inv : forall A B (m : M A) (k : A -> M B) fs r,
  bind m k fs = Done r -> exists a fs', m fs = Done (a, fs') /\ k a fs' = Done r.
Proof.
  intros A B m k fs r H. unfold bind in H. destruct (m fs) as [[a f]|u|]; try discriminate.
  exists a, f; auto.
Qed.

Lemma lift_inv : forall A (o : outcome A) fs r fs',
  lift o fs = Done (r, fs') -> o = Done r /\ fs' = fs.
Proof. intros A [a|u|] fs r fs' H; inversion H; auto. Qed.

Lemma ret_inv : forall A (a b : A) fs fs', ret a fs = Done (b, fs') -> b = a /\ fs' = fs.
Proof. intros A a b fs fs' H; inversion H; auto. Qed.

Lemma set_aad_key : forall aad e fs st e' fs',
  set_aad e aad fs = Done ((st, e'), fs') -> ev_key e' = ev_key e.
Proof.
  induction aad as [|v aad IH]; intros e fs st e' fs' H; cbn [set_aad] in H.
  - apply ret_inv in H as [H _]; inversion H; reflexivity.
  - destruct (iov_len v =? 0); [exact (IH _ _ _ _ _ H)|].
    destruct v as [d|n]; [|apply ret_inv in H as [H _]; inversion H; reflexivity].
    apply bind_inv in H as (ok & f & _ & H).
    destruct (int_narrow (lenN d)) as [m|]; [|apply ret_inv in H as [H _]; inversion H; reflexivity].
    destruct ok; [|apply ret_inv in H as [H _]; inversion H; reflexivity].
    cbn zeta in H. destruct (m =? lenN d).
    + exact (IH _ _ _ _ _ H).
    + apply ret_inv in H as [H _]; inversion H; reflexivity.
Qed.

Lemma encrypt_loop_key : forall P a pt e out off rem fs st e' out' off' rem' fs',
  encrypt_loop P a e pt out off rem fs = Done ((st, e', out', off', rem'), fs') -> ev_key e' = ev_key e.
Proof.
  intros P a. induction pt as [|v pt IH]; intros e out off rem fs st e' out' off' rem' fs' H; cbn [encrypt_loop] in H.
  - apply ret_inv in H as [H _]; inversion H; reflexivity.
  - destruct (iov_len v =? 0); [exact (IH _ _ _ _ _ _ _ _ _ _ _ H)|].
    destruct v as [d|n]; [|apply ret_inv in H as [H _]; inversion H; reflexivity].
    destruct (rem <? lenN d); [apply ret_inv in H as [H _]; inversion H; reflexivity|].
    apply bind_inv in H as (ok & f & _ & H).
    destruct (int_narrow (lenN d)) as [m|]; [|apply ret_inv in H as [H _]; inversion H; reflexivity].
    destruct ok; [|apply ret_inv in H as [H _]; inversion H; reflexivity].
    cbn zeta in H. apply bind_inv in H as (o & f2 & _ & H).
    exact (IH _ _ _ _ _ _ _ _ _ _ _ H).
Qed.

Definition dloop_key (r : dloop) : bytes :=
  match r with DExit _ e _ => ev_key e | DCont e _ _ _ _ _ => ev_key e end.

Lemma zero_exit_key : forall st e out fs r fs',
  zero_exit st e out fs = Done (r, fs') -> dloop_key r = ev_key e.
Proof.
  intros st e out fs r fs' H. apply bind_inv in H as (o & f & _ & H).
  apply ret_inv in H as [-> _]. reflexivity.
Qed.

Lemma decrypt_loop_key : forall P a ct e out total off rem cur fs r fs',
  decrypt_loop P a e ct out total off rem cur fs = Done (r, fs') -> dloop_key r = ev_key e.
Proof.
  intros P a. induction ct as [|v ct IH]; intros e out total off rem cur fs r fs' H; cbn [decrypt_loop] in H.
  - apply ret_inv in H as [-> _]; reflexivity.
  - destruct (total <=? kAeadTagSize); [apply ret_inv in H as [-> _]; reflexivity|].
    destruct (iov_len v =? 0); [exact (IH _ _ _ _ _ _ _ _ _ H)|].
    destruct v as [d|n]; [|exact (zero_exit_key _ _ _ _ _ _ H)].
    cbn zeta in H.
    destruct (rem <? N.min (lenN d) (total - kAeadTagSize)); [apply ret_inv in H as [-> _]; reflexivity|].
    apply bind_inv in H as (ok & f & _ & H).
    destruct (int_narrow _) as [m|]; [|exact (zero_exit_key _ _ _ _ _ _ H)].
    destruct ok; [|exact (zero_exit_key _ _ _ _ _ _ H)].
    apply bind_inv in H as (o & f2 & _ & H).
    exact (IH _ _ _ _ _ _ _ _ _ H).
Qed.

Lemma check_tag_key : forall P a e tag out fs st e' out' fs',
  check_tag P a e tag out fs = Done ((st, e', out'), fs') -> ev_key e' = ev_key e.
Proof.
  intros P a e tag out fs st e' out' fs' H.
  apply bind_inv in H as (ok & f & _ & H). destruct ok; cbn [negb] in H.
  - cbn zeta in H. apply bind_inv in H as (ok & f2 & _ & H).
    destruct (ok && bytes_eqb tag (evp_tag P a (evp_set_tag e tag))).
    + apply ret_inv in H as [H _]; inversion H; reflexivity.
    + apply bind_inv in H as (o & f3 & _ & H). apply ret_inv in H as [H _]; inversion H; reflexivity.
  - apply bind_inv in H as (o & f3 & _ & H). apply ret_inv in H as [H _]; inversion H; reflexivity.
Qed.

Lemma init_context_key : forall e nonce fs st e' fs',
  init_context_using_nonce e nonce fs = Done ((st, e'), fs') -> ev_key e' = ev_key e.
Proof.
  intros e nonce fs st e' fs' H. unfold init_context_using_nonce in H.
  destruct (negb _); [apply ret_inv in H as [H _]; inversion H; reflexivity|].
  apply bind_inv in H as (ok & f & _ & H).
  destruct ok; apply ret_inv in H as [H _]; inversion H; reflexivity.
Qed.

Ltac fin H := apply ret_inv in H as [H _]; inversion H; subst;
  first [apply same_config_refl | apply same_config_with_ctx; cbn; congruence].

Lemma evp_encrypt_config : forall P c nonce aad pt out fs c' s out' fs',
  evp_encrypt P c nonce aad pt out fs = Done ((c', s, out'), fs') -> same_config c c'.
Proof.
  intros P c nonce aad pt out fs c' s out' fs' H. unfold evp_encrypt in H.
  apply bind_inv in H as ([st e1] & f1 & E1 & H). apply init_context_key in E1.
  destruct (negb (is_ok st)); [fin H|].
  apply bind_inv in H as ([st2 e2] & f2 & E2 & H). apply set_aad_key in E2.
  destruct (negb (is_ok st2)); [fin H|].
  apply bind_inv in H as ([[[[st3 e3] o3] off] rem] & f3 & E3 & H). apply encrypt_loop_key in E3.
  destruct (negb (is_ok st3)); [fin H|].
  apply bind_inv in H as (ok & f4 & _ & H). destruct (negb ok); [fin H|].
  destruct (rem <? kAeadTagSize); [fin H|].
  apply bind_inv in H as (ok2 & f5 & _ & H). destruct (negb ok2); [fin H|].
  apply bind_inv in H as (o4 & f6 & _ & H). fin H.
Qed.

Lemma evp_decrypt_config : forall P c nonce aad ct out fs c' s out' fs',
  evp_decrypt P c nonce aad ct out fs = Done ((c', s, out'), fs') -> same_config c c'.
Proof.
  intros P c nonce aad ct out fs c' s out' fs' H. unfold evp_decrypt in H. cbn zeta in H.
  destruct (total_len ct <? kAeadTagSize); [fin H|].
  apply bind_inv in H as ([st e1] & f1 & E1 & H). apply init_context_key in E1.
  destruct (negb (is_ok st)); [fin H|].
  apply bind_inv in H as ([st2 e2] & f2 & E2 & H). apply set_aad_key in E2.
  destruct (negb (is_ok st2)); [fin H|].
  apply bind_inv in H as (r & f3 & E3 & H). apply decrypt_loop_key in E3.
  destruct r as [st3 e3 o3|e3 o3 tot rem cur rest]; cbn [dloop_key] in E3; [fin H|].
  destruct (kAeadTagSize <? tot).
  { apply bind_inv in H as (o4 & f6 & _ & H). fin H. }
  apply bind_inv in H as (tag & f4 & _ & H).
  apply bind_inv in H as ([[st5 e5] o5] & f5 & E5 & H). apply check_tag_key in E5.
  destruct (negb (is_ok st5)); fin H.
Qed.

Lemma bssl_encrypt_config : forall P c nonce aad pt out fs c' s out' fs',
  bssl_encrypt P c nonce aad pt out fs = Done ((c', s, out'), fs') -> same_config c c'.
Proof.
  intros P c nonce aad pt out fs c' s out' fs' H. unfold bssl_encrypt in H.
  destruct (negb _); [fin H|]. destruct (checked_len pt 0); [|fin H].
  destruct (iov_len out <? _); [fin H|]. cbn zeta in H.
  destruct (collect_checked aad []); [|fin H].
  apply bind_inv in H as (ok & f4 & _ & H). destruct (negb ok);
    apply bind_inv in H as (o4 & f6 & _ & H); fin H.
Qed.

Lemma bssl_decrypt_config : forall P c nonce aad ct out fs c' s out' fs',
  bssl_decrypt P c nonce aad ct out fs = Done ((c', s, out'), fs') -> same_config c c'.
Proof.
  intros P c nonce aad pt out fs c' s out' fs' H. unfold bssl_decrypt in H.
  destruct (negb _); [fin H|]. destruct (checked_len pt 0); [|fin H].
  destruct (n <? kAeadTagSize); [fin H|].
  destruct (iov_len out <? _); [fin H|]. cbn zeta in H.
  destruct (collect_checked aad []); [|fin H].
  apply bind_inv in H as (ok & f4 & _ & H).
  match type of H with (if ?b then _ else _) _ = _ => destruct b end;
    apply bind_inv in H as (o4 & f6 & _ & H); fin H.
Qed.

Lemma astep_config : forall P c op fs c' r, astep P c op fs = Done (c', r) -> same_config c c'.
Proof.
  intros P c op fs c' r H. unfold astep in H.
  match type of H with obind ?o _ = _ => destruct o as [[[[c1 [st n]] out1] f]|u|] eqn:E end; try discriminate.
  cbn in H. inversion H; subst; clear H.
  destruct op as [nonce aad pt out|nonce aad ct out]; unfold aead_encrypt, aead_decrypt in E; destruct (cr_impl c);
    eauto using evp_encrypt_config, evp_decrypt_config, bssl_encrypt_config, bssl_decrypt_config.
Qed.

Lemma arun_config : forall P ops c c' rs, arun P c ops = Done (c', rs) -> same_config c c'.
Proof.
  intros P. induction ops as [|[op fs] ops IH]; intros c c' rs H; cbn [arun] in H.
  - inversion H; apply same_config_refl.
  - destruct (astep P c op fs) as [[c1 r]|u|] eqn:E1; try discriminate. cbn [obind] in H.
    destruct (arun P c1 ops) as [[c2 rs2]|u|] eqn:E2; try discriminate. inversion H; subst.
    exact (same_config_trans _ _ _ (astep_config _ _ _ _ _ _ E1) (IH _ _ _ E2)).
Qed.

Lemma arun_same : forall P ops c c', same_config c c' -> same_out (arun P c ops) (arun P c' ops).
Proof.
  intros P. induction ops as [|[op fs] ops IH]; intros c c' H; cbn [arun].
  - split; [exact H|reflexivity].
  - pose proof (astep_same P c c' op fs H) as S.
    destruct (astep P c op fs) as [[c1 r1]|u|], (astep P c' op fs) as [[c2 r2]|u2|]; try contradiction; cbn [obind].
    + destruct S as [S ->]. pose proof (IH _ _ S) as R.
      destruct (arun P c1 ops) as [[c3 r3]|u|], (arun P c2 ops) as [[c4 r4]|u2|]; try contradiction; cbn [obind]; auto.
      destruct R as [R ->]. split; [exact R|reflexivity].
    + exact S.
    + exact I.
Qed.

Lemma acreate_config : forall lib k key fs c fs', acreate lib k key fs = Done (inr c, fs') ->
  crypter_ok c /\ cr_alg c = kind_alg k key /\ crypter_key c = key /\
  (cr_impl c = ChachaBoringSSLImpl <-> k = KChachaPoly /\ lib = BoringSSL) /\
  match k with KAesGcm => lenN key = 16 \/ lenN key = 32 | KChachaPoly => lenN key = 32 end.
Proof.
  intros lib k key fs c fs' H. destruct k; cbn [acreate] in H.
  - unfold create_aes_gcm in H. cbn zeta in H. unfold kind_alg.
    unfold kAes128GcmKeySize, kAes256GcmKeySize in H.
    destruct (N.eqb_spec (lenN key) 16) as [E|E];
      [|destruct (N.eqb_spec (lenN key) 32) as [E2|E2]; [|discriminate]];
    (apply bind_inv in H as (ok & f & _ & H); destruct (negb ok); [discriminate|];
     apply bind_inv in H as (ok2 & f2 & _ & H); destruct (negb ok2); [discriminate|];
     apply ret_inv in H as [H _]; inversion H; subst; cbn;
     repeat split; auto; try discriminate; intros [X _]; discriminate).
  - unfold create_chacha_poly in H. cbn zeta in H. unfold kChachaPolyKeySize in H.
    destruct (N.eqb_spec (lenN key) 32) as [E|E]; [|discriminate]. cbn [negb] in H.
    destruct lib.
    + apply bind_inv in H as (ok & f & _ & H); destruct (negb ok); [discriminate|];
      apply bind_inv in H as (ok2 & f2 & _ & H); destruct (negb ok2); [discriminate|];
      apply ret_inv in H as [H _]; inversion H; subst; cbn.
      repeat split; auto; try discriminate; intros [_ X]; discriminate.
    + apply bind_inv in H as (ok & f & _ & H); destruct (negb ok); [discriminate|];
      apply ret_inv in H as [H _]; inversion H; subst; cbn. repeat split; auto.
Qed.

Lemma areach_config : forall P lib k key c, areach P lib k key c ->
  crypter_ok c /\ cr_alg c = kind_alg k key /\ crypter_key c = key /\
  (cr_impl c = ChachaBoringSSLImpl <-> k = KChachaPoly /\ lib = BoringSSL).
Proof.
  intros P lib k key c (c0 & fs & fs' & ops & rs & H & R).
  apply acreate_config in H as ((A1 & A2) & B & C & D & _).
  apply arun_config in R as (E & F & G & I & J & K).
  unfold crypter_ok. rewrite E, F, G, J, K. auto.
Qed.

Lemma same_out_seen : forall A (o1 o2 : outcome (crypter * A)), same_out o1 o2 -> seen o1 = seen o2.
Proof.
  intros A [[c1 a1]|u1|] [[c2 a2]|u2|] H; cbn in *; try contradiction; try reflexivity.
  - destruct H as [_ ->]; reflexivity.
  - rewrite H; reflexivity.
Qed.

Lemma C54_lemma : forall P c0 ops c rs more,
  arun P c0 ops = Done (c, rs) -> seen (arun P c more) = seen (arun P c0 more).
Proof.
  intros P c0 ops c rs more R. symmetry. apply same_out_seen, arun_same.
  exact (arun_config _ _ _ _ _ R).
Qed.

Lemma app_inj_len_tail : forall (a b t u : bytes), a ++ t = b ++ u -> length t = length u -> a = b.
Proof.
  intros a b t u H L. pose proof (f_equal (@length N) H) as K. rewrite !app_length in K.
  assert (E : length a = length b) by lia.
  apply (f_equal (firstn (length a))) in H. rewrite firstn_app, E, Nat.sub_diag, firstn_O, app_nil_r in H.
  rewrite <- E in H at 1. rewrite firstn_all in H. rewrite H.
  rewrite firstn_app, Nat.sub_diag, firstn_O, app_nil_r, firstn_all. reflexivity.
Qed.

Lemma app_tag_split' : forall (a b t u : bytes), a ++ t = b ++ u -> lenN t = lenN u -> a = b.
Proof.
  intros a b t u H L. apply (app_inj_len_tail a b t u H). unfold lenN in L. lia.
Qed.

Lemma carries_sum : forall vs d, carries vs d -> sum_lens vs = lenN d.
Proof. intros vs d (V & _ & <-). apply sum_lens_concat; exact V. Qed.

Lemma C10_enc_lemma : forall P lib k key c nonce aad pt a m buf,
  prims_ok P -> areach P lib k key c -> lenN nonce = 12 ->
  carries aad a -> carries pt m -> lenN m + 16 < two64 -> lenN m + 16 <= lenN buf ->
  exists c', astep P c (AEncrypt nonce aad pt (IoBuf buf)) [] =
    Done (c', {| ar_st := kOk; ar_n := lenN m + 16;
                 ar_out := IoBuf (seal P (kind_alg k key) key nonce a m ++ dropN (lenN m + 16) buf) |}).
Proof.
  intros P lib k key c nonce aad pt a m buf HP Hr Hn Ha Hm Hb Hl.
  destruct (areach_config _ _ _ _ _ Hr) as (Hc & Ea & Ek & _).
  pose proof (carries_sum _ _ Hm) as Sm. destruct Ha as (Va & Sa & Ca), Hm as (Vm & Sm' & Cm).
  destruct (aead_encrypt_spec P c nonce aad pt buf [] HP Hc Sa Sm') as (c' & st & n & buf' & fs' & E & _ & _ & OK & _ & _ & L);
    [lia|].
  destruct (L Hn Va Vm) as [-> ->]; [lia|reflexivity|].
  destruct (OK eq_refl) as (_ & _ & _ & En & _ & Eb). rewrite Ca, Cm, Ea, Ek in *.
  rewrite lenN_seal in En by exact HP. subst n buf'.
  exists c'. unfold astep. rewrite E. reflexivity.
Qed.

Lemma C10_dec_lemma : forall P lib k key c nonce aad ct a m buf,
  prims_ok P -> areach P lib k key c -> lenN nonce = 12 ->
  carries aad a -> carries ct (seal P (kind_alg k key) key nonce a m) ->
  lenN m + 16 < two64 -> lenN m <= lenN buf ->
  exists c', astep P c (ADecrypt nonce aad ct (IoBuf buf)) [] =
    Done (c', {| ar_st := kOk; ar_n := lenN m; ar_out := IoBuf (m ++ dropN (lenN m) buf) |}).
Proof.
  intros P lib k key c nonce aad ct a m buf HP Hr Hn Ha Hm Hb Hl.
  destruct (areach_config _ _ _ _ _ Hr) as (Hc & Ea & Ek & _).
  pose proof (carries_sum _ _ Hm) as Sm. rewrite lenN_seal in Sm by exact HP.
  destruct Ha as (Va & Sa & Ca), Hm as (Vm & Sm' & Cm).
  destruct (aead_decrypt_spec P c nonce aad ct buf [] HP Hc Sa Sm' Vm) as (c' & st & n & buf' & fs' & E & _ & _ & OK & _ & _ & L);
    [lia|].
  rewrite Ca, Cm, Ea, Ek in *.
  destruct (L (stream P (kind_alg k key) key nonce m) Hn Va eq_refl) as [-> ->];
    [rewrite lenN_stream; exact Hl|reflexivity|].
  destruct (OK eq_refl) as (_ & _ & body & Eq & En & _ & Eb).
  unfold seal in Eq. cbn zeta in Eq.
  apply app_tag_split' in Eq.
  2:{ rewrite !(mac_len P HP). reflexivity. }
  rewrite <- Eq in Eb, En. rewrite stream_involutive in Eb. rewrite lenN_stream in En. subst n buf'.
  exists c'. unfold astep. rewrite E. reflexivity.
Qed.

(* What is left in the buffer when Decrypt fails, whatever its arguments. *)
Lemma total_len_le_acc : forall vs acc,
  fold_left (fun acc v => wrap64 (acc + iov_len v)) vs acc <= acc + sum_lens vs.
Proof.
  induction vs as [|v vs IH]; intros acc; cbn [fold_left sum_lens]; [lia|].
  eapply N.le_trans; [apply IH|].
  pose proof (N.mod_le (acc + iov_len v) two64). unfold wrap64, two64 in *. lia.
Qed.

Lemma total_len_le : forall vs, total_len vs <= sum_lens vs.
Proof. intros vs. unfold total_len. eapply N.le_trans; [apply total_len_le_acc|]. lia. Qed.

Lemma write_at_len : forall buf off d o, write_at (IoBuf buf) off d = Done o ->
  exists b, o = IoBuf b /\ lenN b = lenN buf.
Proof.
  intros buf off d o H. unfold write_at in H. destruct d as [|x d]; [inversion H; eauto|].
  destruct (N.leb_spec (off + lenN (x :: d)) (lenN buf)); [|discriminate].
  injection H as <-. eexists; split; [reflexivity|].
  change (lenN (takeN off buf ++ (x :: d) ++ dropN (off + lenN (x :: d)) buf) = lenN buf).
  rewrite !lenN_app, lenN_takeN, lenN_dropN. lia.
Qed.

Lemma int_narrow_le : forall n m, int_narrow n = Some m -> m <= n.
Proof.
  intros n m H. unfold int_narrow in H. destruct (_ <? _); [|discriminate]. inversion H.
  apply N.mod_le. discriminate.
Qed.

Definition dloop_left (L total rem : N) (r : dloop) : Prop :=
  match r with
  | DExit st _ out => exists b, out = IoBuf b /\ lenN b = L /\ (b = zeros L \/ rem < total - 16)
  | DCont _ out _ _ _ _ => exists b, out = IoBuf b /\ lenN b = L
  end.

Lemma zero_exit_left : forall st e buf fs r fs' total rem,
  zero_exit st e (IoBuf buf) fs = Done (r, fs') -> dloop_left (lenN buf) total rem r.
Proof.
  intros st e buf fs r fs' total rem H. apply bind_inv in H as (o & f & E & H).
  apply lift_inv in E as [E _]. cbn in E. inversion E; subst.
  apply ret_inv in H as [-> _]. cbn. eexists; split; [reflexivity|].
  rewrite lenN_zeros. auto.
Qed.

Lemma decrypt_loop_left : forall P a ct e buf total off rem cur fs r fs',
  decrypt_loop P a e ct (IoBuf buf) total off rem cur fs = Done (r, fs') ->
  dloop_left (lenN buf) total rem r.
Proof.
  intros P a. induction ct as [|v ct IH]; intros e buf total off rem cur fs r fs' H; cbn [decrypt_loop] in H.
  - apply ret_inv in H as [-> _]; cbn; eauto.
  - destruct (total <=? kAeadTagSize); [apply ret_inv in H as [-> _]; cbn; eauto|].
    destruct (iov_len v =? 0); [exact (IH _ _ _ _ _ _ _ _ _ H)|].
    destruct v as [d|n]; [|exact (zero_exit_left _ _ _ _ _ _ _ _ H)].
    cbn zeta in H. unfold kAeadTagSize in H.
    destruct (N.ltb_spec rem (N.min (lenN d) (total - 16))) as [Hl|Hl].
    + apply ret_inv in H as [-> _]; cbn. exists buf. split; [reflexivity|]. split; [reflexivity|]. lia.
    + apply bind_inv in H as (ok & f & _ & H).
      destruct (int_narrow _) as [m|] eqn:Em; [|exact (zero_exit_left _ _ _ _ _ _ _ _ H)].
      destruct ok; [|exact (zero_exit_left _ _ _ _ _ _ _ _ H)].
      apply int_narrow_le in Em.
      apply bind_inv in H as (o & f2 & Ew & H). apply lift_inv in Ew as [Ew _].
      apply write_at_len in Ew as (b & -> & Lb).
      apply IH in H. rewrite Lb in H. destruct r as [st e' o|]; cbn in *; [|exact H].
      destruct H as (b' & -> & L & D). exists b'. split; [reflexivity|]. split; [exact L|].
      destruct D as [D|D]; [auto|right; lia].
Qed.

Definition fail_left (buf : bytes) (small : Prop) (s : cstatus) (out : iovec) : Prop :=
  fst s <> kOk -> snd s = 0 /\ (out = IoBuf buf \/ out = IoBuf (zeros (lenN buf)) \/ small).

Lemma evp_decrypt_left : forall P c nonce aad ct buf fs c' s out fs',
  evp_decrypt P c nonce aad ct (IoBuf buf) fs = Done ((c', s, out), fs') ->
  fail_left buf (lenN buf + 16 < sum_lens ct) s out.
Proof.
  intros P c nonce aad ct buf fs c' s out fs' H Hs. unfold evp_decrypt in H. cbn zeta in H.
  destruct (_ <? _); [apply ret_inv in H as [H _]; inversion H; auto|].
  apply bind_inv in H as ([st e1] & f1 & E1 & H).
  destruct (negb (is_ok st)); [apply ret_inv in H as [H _]; inversion H; auto|].
  apply bind_inv in H as ([st2 e2] & f2 & E2 & H).
  destruct (negb (is_ok st2)); [apply ret_inv in H as [H _]; inversion H; auto|].
  apply bind_inv in H as (r & f3 & E3 & H). apply decrypt_loop_left in E3. cbn [iov_len] in E3.
  pose proof (total_len_le ct) as Ht.
  destruct r as [st3 e3 o3|e3 o3 t3 rem3 cur3 rest3]; cbn [dloop_left] in E3.
  - destruct E3 as (b & -> & Lb & D). apply ret_inv in H as [H _]; inversion H; subst. cbn.
    split; [reflexivity|]. destruct D as [->|D]; [auto|]. right; right; lia.
  - destruct E3 as (b & -> & Lb).
    destruct (kAeadTagSize <? t3).
    + apply bind_inv in H as (o & f4 & E4 & H). apply lift_inv in E4 as [E4 _]. cbn in E4. inversion E4; subst.
      apply ret_inv in H as [H _]; inversion H; subst. rewrite Lb. auto.
    + apply bind_inv in H as (tag & f4 & _ & H).
      apply bind_inv in H as ([[st4 e4] o4] & f5 & E5 & H).
      destruct (is_ok st4) eqn:Eok; cbn [negb] in H.
      * apply ret_inv in H as [H _]; inversion H; subst. cbn in Hs. congruence.
      * apply ret_inv in H as [H _]; inversion H; subst. cbn.
        split; [reflexivity|]. right; left.
        apply bind_inv in E5 as (ok & f6 & _ & E5). destruct ok; cbn [negb] in E5.
        -- cbn zeta in E5. apply bind_inv in E5 as (ok & f7 & _ & E5).
           destruct (_ && _).
           ++ apply ret_inv in E5 as [E5 _]. inversion E5; subst. discriminate.
           ++ apply bind_inv in E5 as (o & f8 & E8 & E5). apply lift_inv in E8 as [E8 _]. cbn in E8.
              apply ret_inv in E5 as [E5 _]. inversion E5; inversion E8; subst. rewrite Lb. reflexivity.
        -- apply bind_inv in E5 as (o & f8 & E8 & E5). apply lift_inv in E8 as [E8 _]. cbn in E8.
           apply ret_inv in E5 as [E5 _]. inversion E5; inversion E8; subst. rewrite Lb. reflexivity.
Qed.

Lemma bssl_decrypt_left : forall P c nonce aad ct buf fs c' s out fs',
  bssl_decrypt P c nonce aad ct (IoBuf buf) fs = Done ((c', s, out), fs') ->
  fail_left buf False s out.
Proof.
  intros P c nonce aad ct buf fs c' s out fs' H Hs. unfold bssl_decrypt in H. cbn zeta in H.
  destruct (negb _); [apply ret_inv in H as [H _]; inversion H; auto|].
  destruct (checked_len ct 0) as [n|]; [|apply ret_inv in H as [H _]; inversion H; auto].
  destruct (_ <? _); [apply ret_inv in H as [H _]; inversion H; auto|].
  destruct (_ <? _); [apply ret_inv in H as [H _]; inversion H; auto|].
  destruct (collect_checked aad []) as [av|]; [|apply ret_inv in H as [H _]; inversion H; auto].
  apply bind_inv in H as (ok & f & _ & H). destruct (_ && _).
  - apply bind_inv in H as (o & f2 & _ & H). apply ret_inv in H as [H _]; inversion H; subst.
    cbn in Hs. congruence.
  - apply bind_inv in H as (o & f2 & E2 & H). apply lift_inv in E2 as [E2 _]. cbn in E2. inversion E2; subst.
    apply ret_inv in H as [H _]; inversion H; auto.
Qed.

Lemma C12_lemma : forall P lib k key c nonce aad ct buf fs c' r,
  areach P lib k key c ->
  (k = KChachaPoly /\ lib = BoringSSL) \/ sum_lens ct <= lenN buf + 16 ->
  astep P c (ADecrypt nonce aad ct (IoBuf buf)) fs = Done (c', r) -> ar_st r <> kOk ->
  ar_n r = 0 /\ (ar_out r = IoBuf buf \/ ar_out r = IoBuf (zeros (lenN buf))).
Proof.
  intros P lib k key c nonce aad ct buf fs c' r Hr Hx E Hok.
  destruct (areach_config _ _ _ _ _ Hr) as (_ & _ & _ & Ei).
  unfold astep in E. destruct (aead_decrypt _ _ _ _ _ _ _) as [[[[c1 s] o] fs']|u|] eqn:E1; try discriminate.
  cbn in E. destruct s as [st n]. inversion E; subst; clear E. cbn in *.
  unfold aead_decrypt in E1.
  destruct (cr_impl c) eqn:Ec;
    [apply evp_decrypt_left in E1|apply evp_decrypt_left in E1|apply bssl_decrypt_left in E1];
    destruct (E1 Hok) as [? [D|[D|D]]]; cbn in *; auto; try contradiction;
    (destruct Hx as [Hx|Hx]; [apply Ei in Hx; discriminate|exfalso; lia]).
Qed.

Lemma C12_count_lemma : forall P c nonce aad ct buf fs c' r,
  astep P c (ADecrypt nonce aad ct (IoBuf buf)) fs = Done (c', r) -> ar_st r <> kOk -> ar_n r = 0.
Proof.
  intros P c nonce aad ct buf fs c' r E Hok.
  unfold astep in E. destruct (aead_decrypt _ _ _ _ _ _ _) as [[[[c1 s] o] fs']|u|] eqn:E1; try discriminate.
  cbn in E. destruct s as [st n]. inversion E; subst; clear E. cbn in *.
  unfold aead_decrypt in E1.
  destruct (cr_impl c);
    [apply evp_decrypt_left in E1|apply evp_decrypt_left in E1|apply bssl_decrypt_left in E1];
    apply (E1 Hok).
Qed.

Lemma C53_lemma : forall P lib k key c, areach P lib k key c ->
  (forall n, n + 16 < two64 -> max_ciphertext_and_tag_length c n = n + 16 /\
     max_plaintext_length c (max_ciphertext_and_tag_length c n) = n) /\
  (forall n, 16 <= n -> n < two64 -> max_plaintext_length c n = n - 16 /\
     max_ciphertext_and_tag_length c (max_plaintext_length c n) = n).
Proof.
  intros P lib k key c Hr. destruct (areach_config _ _ _ _ _ Hr) as ((_ & Ht) & _).
  unfold max_ciphertext_and_tag_length, max_plaintext_length, sub64, wrap64, two64. rewrite Ht.
  split.
  - intros n Hn. rewrite (N.mod_small (n + 16)) by lia. split; [reflexivity|].
    replace (n + 16 + 18446744073709551616 - 16) with (n + 1 * 18446744073709551616) by lia.
    rewrite N.mod_add by lia. apply N.mod_small; lia.
  - intros n Hl Hn.
    replace (n + 18446744073709551616 - 16) with ((n - 16) + 1 * 18446744073709551616) by lia.
    rewrite N.mod_add by lia. rewrite (N.mod_small (n - 16)) by lia. split; [reflexivity|].
    replace (n - 16 + 16) with n by lia. apply N.mod_small; lia.
Qed.

Lemma C53_enc_lemma : forall P lib k key c nonce aad pt buf fs c' r,
  prims_ok P -> areach P lib k key c ->
  Forall small_iov aad -> Forall small_iov pt -> sum_lens pt + 16 < two64 ->
  astep P c (AEncrypt nonce aad pt (IoBuf buf)) fs = Done (c', r) ->
  (ar_st r = kOk -> ar_n r = max_ciphertext_and_tag_length c (sum_lens pt)) /\
  (ar_st r <> kOk -> ar_n r = 0).
Proof.
  intros P lib k key c nonce aad pt buf fs c' r HP Hr Sa Sm Hb E.
  destruct (C53_lemma _ _ _ _ _ Hr) as [X _]. destruct (X _ Hb) as [-> _].
  destruct (areach_config _ _ _ _ _ Hr) as (Hc & Ea & Ek & Ei).
  destruct (aead_encrypt_spec P c nonce aad pt buf fs HP Hc Sa Sm Hb) as (c1 & st & n & buf' & fs' & E1 & _ & _ & OK & NOK & _).
  unfold astep in E. rewrite E1 in E. cbn in E. inversion E; subst; clear E. cbn in *.
  split; [|exact NOK]. intros Hk. destruct (OK Hk) as (_ & _ & V & En & _).
  rewrite En, lenN_seal by exact HP. rewrite (sum_lens_concat pt V). reflexivity.
Qed.

Lemma C56_lemma : forall P lib k key c nonce aad pt buf fs c' r,
  prims_ok P -> areach P lib k key c ->
  Forall small_iov aad -> Forall small_iov pt -> sum_lens pt + 16 < two64 ->
  astep P c (AEncrypt nonce aad pt (IoBuf buf)) fs = Done (c', r) -> ar_st r = kOk ->
  ar_n r = sum_lens pt + 16 /\
  ar_out r = IoBuf (seal P (kind_alg k key) key nonce (iov_concat aad) (iov_concat pt)
                      ++ dropN (sum_lens pt + 16) buf) /\
  lenN (iov_concat pt) = sum_lens pt.
Proof.
  intros P lib k key c nonce aad pt buf fs c' r HP Hr Sa Sm Hb E Hk.
  destruct (areach_config _ _ _ _ _ Hr) as (Hc & Ea & Ek & Ei).
  destruct (aead_encrypt_spec P c nonce aad pt buf fs HP Hc Sa Sm Hb) as (c1 & st & n & buf' & fs' & E1 & _ & _ & OK & _).
  unfold astep in E. rewrite E1 in E. cbn in E. inversion E; subst; clear E. cbn in *.
  destruct (OK Hk) as (_ & _ & V & En & _ & Eb). cbn zeta in *.
  pose proof (sum_lens_concat pt V) as S. rewrite lenN_seal in En by exact HP.
  rewrite Ea in *. rewrite S. split; [exact En|]. split; [rewrite Eb, En; reflexivity|reflexivity].
Qed.
