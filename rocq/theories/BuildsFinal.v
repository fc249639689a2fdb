(* Lemmas for PropBuilds.v: C91. *)
From Coq Require Import List NArith ZArith Bool Lia ZifyBool ZifyNat ZifyN.
From Verif Require Import Base BaseProofs Aead SpecAead AeadProofs AeadRun AeadRunProofs AeadAnyProofs AeadTotalProofs AeadRefuted AeadExamples
  Hkdf HalfConn SpecTls HkdfProofs HalfProofs Options HsHandler SpecHs HsProofs Crypter SpecRecord CrypterProofs
  SpecRx CrypterRun CrypterRunProofs SpecRxProofs CrypterLemmas CrypterLemmas2 Calm
  FrameProt SpecFrame FrameRun FrameProofs FrameNull FrameRx FrameSim FrameFinal FrameRef SpecCodes AeadCodes CreateCodes
  Toy ToyProofs RecordExamples FrameExamples BuildsProofs BuildsAes.
Import ListNotations.
Local Open Scope N_scope.

(* ---- crypters ---- *)
Definition cr_twins (P : prims) (x y : crypt * list cres) : Prop := twins P (fst x) (fst y) /\ snd x = snd y.

Lemma cstep_twins : forall P lib1 lib2 x1 x2 op, prims_ok P -> twins P x1 x2 -> cop_ok op ->
  osame (fun a b => twins P (fst a) (fst b) /\ snd a = snd b) (cstep P lib1 x1 op []) (cstep P lib2 x2 op []).
Proof.
  intros P lib1 lib2 x1 x2 op HP T Hop. destruct op as [t pt buf|hdr payload buf|]; cbn [cstep].
  - eapply osame_obind; [apply protect_twins; assumption|].
    intros [[y1 [s1 n1]] o1] [[y2 [s2 n2]] o2] (T1 & E & <-). injection E as <- <-. cbn. auto.
  - eapply osame_obind; [apply unprotect_twins; assumption|].
    intros [[y1 [s1 n1]] o1] [[y2 [s2 n2]] o2] (T1 & E & <-). injection E as <- <-. cbn. auto.
  - destruct T as (din & dout & h & g & -> & R1 & R2 & R3 & R4). unfold crypt_update_outbound_key.
    eapply (osame_obind _ _ (fun a b => twins P (fst a) (fst b) /\ snd a = snd b)).
    + eapply same_bind; [apply (update_twins P lib1 lib2 HP _ _ dout); [exact R3|exact R4]|].
      intros [k1 s1] [k2 s2] (E1 & E2 & Q1 & Q2). cbn [fst snd] in *. subst s1 s2. apply same_ret. cbn [fst snd].
      split; [|reflexivity]. exists din, (dir_update P dout), h, k2. tw.
    + intros [y1 s1] [y2 s2] [T1 E]. cbn [fst snd] in *. subst s2. cbn. auto.
Qed.

Lemma crun_twins : forall P lib1 lib2 ops x1 x2, prims_ok P -> twins P x1 x2 -> cops_ok ops -> no_faults ops ->
  osame (cr_twins P) (crun P lib1 x1 ops) (crun P lib2 x2 ops).
Proof.
  intros P lib1 lib2. induction ops as [|[op fs] ops IH]; intros x1 x2 HP T Hok Hf; cbn [crun]; [split; auto|].
  inversion Hok as [|? ? H1 H2]; subst. inversion Hf as [|? ? K1 K2]; subst. cbn [fst snd] in *. subst fs.
  pose proof (cstep_twins P lib1 lib2 x1 x2 op HP T H1) as Q.
  destruct (cstep P lib1 x1 op []) as [[g1 r1]|u|], (cstep P lib2 x2 op []) as [[g2 r2]|u'|]; cbn in Q; try contradiction; cbn [obind]; auto.
  destruct Q as [T1 E]. cbn [fst snd] in *. subst r2. specialize (IH g1 g2 HP T1 H2 K2).
  destruct (crun P lib1 g1 ops) as [[k1 rs1]|u|], (crun P lib2 g2 ops) as [[k2 rs2]|u'|]; cbn in IH; try contradiction; cbn [obind]; auto.
  destruct IH as [T2 E]. cbn [fst snd] in *. subst rs2. split; auto.
Qed.

Lemma create_twins : forall P lib1 lib2 a fs x1 fs', prims_ok P -> ca_in_seq a < two64 -> ca_out_seq a < two64 ->
  crypt_create P lib1 a fs = Done (inr x1, fs') -> exists x2, crypt_create P lib2 a [] = Done (inr x2, []) /\ twins P x1 x2.
Proof.
  intros P lib1 lib2 a fs x1 fs' HP Hi Ho E.
  destruct (crypt_create_spec P lib1 a fs HP Hi Ho) as (r & f1 & E1 & _ & A & _). rewrite E in E1. injection E1 as <- <-.
  destruct (A x1 eq_refl) as (U & L & S & T & L1 & L2 & R1 & R2 & _ & _ & _ & _ & X1).
  destruct (crypt_create_spec P lib2 a [] HP Hi Ho) as (r2 & f2 & E2 & _ & B & C & _).
  destruct (C U L S T L1 L2 eq_refl) as (-> & x2 & ->). exists x2. split; [exact E2|].
  destruct (B x2 eq_refl) as (_ & _ & _ & _ & _ & _ & Q1 & Q2 & _ & _ & _ & _ & X2).
  exists (dir_start (ca_suite a) (ca_in_secret a) (ca_in_seq a)), (dir_start (ca_suite a) (ca_out_secret a) (ca_out_seq a)), (cx_in x2), (cx_out x2).
  split; [|auto]. rewrite X2 at 1. rewrite X1. reflexivity.
Qed.

Lemma twins_sent : forall P x1 x2, twins P x1 x2 -> cx_sent x2 = cx_sent x1.
Proof. intros P x1 x2 (din & dout & h & g & -> & _). reflexivity. Qed.

Lemma undef_iff : forall A B (R : A -> B -> Prop) o1 o2, osame R o1 o2 -> forall u, o1 = Undef u <-> o2 = Undef u.
Proof. intros A B R [a|u|] [b|u'|] H v; cbn in H; try contradiction; subst; split; congruence. Qed.

Lemma C91crypter : forall P lib1 lib2 a ops rs x1, connection P lib1 a ops rs x1 -> no_faults ops ->
  exists x2, connection P lib2 a ops rs x2 /\ cx_sent x2 = cx_sent x1 /\
    forall op u, cop_ok op -> (cstep P lib1 x1 op [] = Undef u <-> cstep P lib2 x2 op [] = Undef u).
Proof.
  intros P lib1 lib2 a ops rs x1 (HP & Hi & Ho & Hok & x0 & fs & fs' & E & R) Hf.
  destruct (create_twins P lib1 lib2 a fs x0 fs' HP Hi Ho E) as (y0 & E2 & T).
  pose proof (crun_twins P lib1 lib2 ops x0 y0 HP T Hok Hf) as Q. rewrite R in Q.
  destruct (crun P lib2 y0 ops) as [[x2 rs2]|u|] eqn:R2; cbn in Q; try contradiction. destruct Q as [T2 E3]. cbn [fst snd] in *. subst rs2.
  exists x2. split; [split; [exact HP|split; [exact Hi|split; [exact Ho|split; [exact Hok|exists y0, [], []; auto]]]]|].
  split; [exact (twins_sent _ _ _ T2)|]. intros op u Hop. eapply undef_iff. apply cstep_twins; assumption.
Qed.

(* ---- frame protectors ---- *)
Lemma C91frame : forall P lib1 lib2 al a ops rs f1, protector P lib1 al a ops rs f1 -> no_failures ops ->
  exists f2, protector P lib2 al a ops rs f2 /\ fp_events f2 = fp_events f1 /\
    cx_sent (fp_crypt f2) = cx_sent (fp_crypt f1) /\
    forall op u, fop_ok op -> (fstep P lib1 al f1 op [] = Undef u <-> fstep P lib2 al f2 op [] = Undef u).
Proof.
  intros P lib1 lib2 al a ops rs f1 (HP & HA & Hi & Ho & Hok & f0 & fs & fs' & E & R) Hf.
  destruct (fp_create_inv P lib1 a fs f0 fs' HP Hi Ho E) as (A1 & A2 & A3 & x0 & Ex & ->).
  destruct (create_twins P lib1 lib2 (c_args a) fs x0 fs' HP Hi Ho Ex) as (y0 & Ey & T).
  set (g0 := {| fp_crypt := y0; fp_max := 16384 + 22; fp_next := 0; fp_events := [] |}).
  assert (E2 : fp_create P lib2 a [] = Done (inr g0, [])).
  { unfold fp_create. rewrite A1, A2, A3. cbn [negb orb].
    match goal with |- context [crypt_create P lib2 ?c] => replace c with (c_args a) by (unfold c_args; rewrite A3; reflexivity) end.
    unfold bind at 1. rewrite Ey. unfold bind, lift. destruct (twins_overhead _ _ _ T) as [_ ->]. reflexivity. }
  assert (FT : ftwins P {| fp_crypt := x0; fp_max := 16384 + 22; fp_next := 0; fp_events := [] |} g0)
    by (exists y0; split; [reflexivity|exact T]).
  pose proof (frun_twins P lib1 lib2 HP al ops _ _ HA FT Hok Hf) as Q. rewrite R in Q.
  destruct (frun P lib2 al g0 ops) as [[f2 rs2]|u|] eqn:R2; cbn in Q; try contradiction. destruct Q as [T2 E3]. cbn [fst snd] in *. subst rs2.
  exists f2. split; [split; [exact HP|split; [exact HA|split; [exact Hi|split; [exact Ho|split; [exact Hok|exists g0, [], []; auto]]]]]|].
  split; [destruct T2 as (x & -> & _); reflexivity|]. split; [apply (twins_sent P); exact (ftwins_crypt _ _ _ T2)|].
  intros op u Hop. eapply undef_iff. apply fstep_twins; assumption.
Qed.

Lemma C91create : forall P lib1 lib2 a c fs', prims_ok P -> ca_in_seq (fa_crypt a) < two64 -> ca_out_seq (fa_crypt a) < two64 ->
  fp_create P lib1 a [] = Done (inl c, fs') -> exists fs'', fp_create P lib2 a [] = Done (inl c, fs'').
Proof.
  intros P lib1 lib2 a c fs' HP Hi Ho E. pose proof (D90frame P lib1 a [] c fs' HP Hi Ho E) as D.
  destruct D as [[-> N]|[_ K]]; [|destruct (K eq_refl)].
  destruct (F32 P lib2 a [] HP Hi Ho) as (r & f2 & E2 & _). exists f2. rewrite E2. repeat f_equal. destruct r as [c2|f].
  - destruct (D90frame P lib2 a [] c2 f2 HP Hi Ho E2) as [[-> _]|[_ K]]; [reflexivity|destruct (K eq_refl)].
  - exfalso. destruct (fp_create_inv P lib2 a [] f f2 HP Hi Ho E2) as (A1 & A2 & A3 & x & Ex & _).
    destruct (crypt_create_spec P lib2 (c_args a) [] HP Hi Ho) as (r3 & f3 & E3 & _ & A & _). rewrite Ex in E3. injection E3 as <- <-.
    destruct (A x eq_refl) as (U & L & S & T & L1 & L2 & _). apply N. auto 10.
Qed.

(* With an AES-GCM suite, library failures included. *)
Lemma C91aes : forall P lib1 lib2 al a ops rs f, ca_suite (fa_crypt a) <> CHACHA20_POLY1305_SHA256 ->
  protector P lib1 al a ops rs f -> protector P lib2 al a ops rs f /\
  forall op fs, fstep P lib1 al f op fs = fstep P lib2 al f op fs.
Proof.
  intros P lib1 lib2 al a ops rs f Hs (HP & HA & Hi & Ho & Hok & f0 & fs & fs' & E & R).
  destruct (fp_create_aes P lib1 lib2 a Hs) as [C1 C2]. pose proof (C2 _ _ _ E f0 eq_refl) as H0.
  split.
  - split; [exact HP|]. split; [exact HA|]. split; [exact Hi|]. split; [exact Ho|]. split; [exact Hok|].
    exists f0, fs, fs'. rewrite <- C1. split; [exact E|]. rewrite <- (frun_aes P lib1 lib2 al ops f0 H0). exact R.
  - assert (Hf : aes_f f).
    { clear E Hok. revert f0 rs H0 R. induction ops as [|[op fz] ops IH]; intros f0 rs H0 R; cbn [frun] in R.
      - injection R as <- _. exact H0.
      - destruct (fstep_aes P lib1 lib2 al f0 op fz H0) as [_ K]. destruct (fstep P lib1 al f0 op fz) as [[g r]|u|]; cbn [obind] in R; try discriminate.
        destruct (frun P lib1 al g ops) as [[g' rs']|u|] eqn:R'; cbn [obind] in R; try discriminate. injection R as <- _.
        exact (IH g rs' (K _ _ eq_refl) R'). }
    intros op fs1. apply (fstep_aes P lib1 lib2 al f op fs1 Hf).
Qed.

(* ---- AEAD crypters ---- *)
Lemma seal_inj : forall P A K n aad m m', prims_ok P -> seal P A K n aad m = seal P A K n aad m' -> m = m'.
Proof.
  intros P A K n aad m m' HP E. unfold seal in E. cbv zeta in E.
  assert (L : length (stream P A K n m) = length (stream P A K n m')).
  { apply (f_equal lenN) in E. rewrite !lenN_app, !(mac_len P HP) in E. unfold lenN in E. lia. }
  destruct (app_inv_len _ _ _ _ _ L E) as [E1 _].
  rewrite <- (stream_involutive P A K n m), <- (stream_involutive P A K n m'), E1. reflexivity.
Qed.

Lemma C91enc : forall P lib1 lib2 k key c1 c2 nonce aad pt buf c1' c2' r1 r2, prims_ok P ->
  areach P lib1 k key c1 -> areach P lib2 k key c2 ->
  Forall small_iov aad -> Forall small_iov pt -> sum_lens pt + 16 < two64 ->
  astep P c1 (AEncrypt nonce aad pt (IoBuf buf)) [] = Done (c1', r1) ->
  astep P c2 (AEncrypt nonce aad pt (IoBuf buf)) [] = Done (c2', r2) ->
  ar_st r1 = ar_st r2 /\ ar_n r1 = ar_n r2 /\ (ar_st r1 = kOk -> ar_out r1 = ar_out r2).
Proof.
  intros P lib1 lib2 k key c1 c2 nonce aad pt buf c1' c2' r1 r2 HP A1 A2 Sa Sp Hs E1 E2.
  destruct (areach_config _ _ _ _ _ A1) as (O1 & G1 & K1 & _). destruct (areach_config _ _ _ _ _ A2) as (O2 & G2 & K2 & _).
  destruct (C87enc_exact _ _ _ _ _ _ _ _ _ _ _ A1 Hs Sa Sp E1) as [[S1 B1]|[S1 B1]];
  destruct (C87enc_exact _ _ _ _ _ _ _ _ _ _ _ A2 Hs Sa Sp E2) as [[S2 B2]|[S2 B2]]; try contradiction; unfold astep in E1, E2;
  destruct (aead_encrypt_spec P c1 nonce aad pt buf [] HP O1 Sa Sp Hs) as (d1 & s1 & n1 & b1 & f1 & F1 & _ & _ & Y1 & N1 & _);
  destruct (aead_encrypt_spec P c2 nonce aad pt buf [] HP O2 Sa Sp Hs) as (d2 & s2 & n2 & b2 & f2 & F2 & _ & _ & Y2 & N2 & _);
  rewrite F1 in E1; cbn [obind] in E1; injection E1 as _ <-; rewrite F2 in E2; cbn [obind] in E2; injection E2 as _ <-;
  cbn [ar_st ar_n ar_out] in *; subst s1 s2.
  - destruct (Y1 eq_refl) as (_ & _ & _ & -> & _ & ->). destruct (Y2 eq_refl) as (_ & _ & _ & -> & _ & ->).
    rewrite G1, G2, K1, K2. auto.
  - rewrite N1, N2 by discriminate. repeat split; intros; discriminate.
Qed.

Lemma C91dec : forall P lib1 lib2 k key c1 c2 nonce aad ct buf c1' c2' r1 r2, prims_ok P ->
  areach P lib1 k key c1 -> areach P lib2 k key c2 ->
  Forall small_iov aad -> Forall small_iov ct -> sum_lens ct < two64 ->
  astep P c1 (ADecrypt nonce aad ct (IoBuf buf)) [] = Done (c1', r1) ->
  astep P c2 (ADecrypt nonce aad ct (IoBuf buf)) [] = Done (c2', r2) ->
  ar_st r1 = ar_st r2 /\ (ar_st r1 = kOk -> ar_n r1 = ar_n r2 /\ ar_out r1 = ar_out r2).
Proof.
  intros P lib1 lib2 k key c1 c2 nonce aad ct buf c1' c2' r1 r2 HP A1 A2 Sa Sc Hs E1 E2.
  destruct (C87dec_exact _ _ _ _ _ _ _ _ _ _ _ HP A1 Hs Sa Sc E1) as [(S1 & B1 & m1 & M1)|[(S1 & B1)|(S1 & B1 & M1)]];
  destruct (C87dec_exact _ _ _ _ _ _ _ _ _ _ _ HP A2 Hs Sa Sc E2) as [(S2 & B2 & m2 & M2)|[(S2 & B2)|(S2 & B2 & M2)]];
    try contradiction; try (split; [congruence|]; rewrite S1; discriminate).
  - split; [congruence|]. intros _.
    destruct (C11_lemma _ _ _ _ _ _ _ _ _ _ _ _ HP A1 Hs E1 S1) as (_ & _ & _ & m & Em & Q1 & _ & Q2).
    destruct (C11_lemma _ _ _ _ _ _ _ _ _ _ _ _ HP A2 Hs E2 S2) as (_ & _ & _ & m' & Em' & Q1' & _ & Q2').
    assert (m' = m). { apply (seal_inj P (kind_alg k key) key nonce (iov_concat aad)); [exact HP|congruence]. } subst m'.
    rewrite Q1, Q1', Q2, Q2'. auto.
  - destruct (M2 m1 M1).
Qed.

(* A record cut after its first byte and room for one byte: the same status,
   but different bytes in the buffer. A null tag: undefined behaviour with
   OpenSSL, an error with BoringSSL. *)
Lemma C91out : exists P key c1 c2 nonce ct buf c1' c2' r1 r2, prims_ok P /\
  areach P OpenSSL KChachaPoly key c1 /\ areach P BoringSSL KChachaPoly key c2 /\ Forall iov_valid ct /\
  astep P c1 (ADecrypt nonce [] ct (IoBuf buf)) [] = Done (c1', r1) /\
  astep P c2 (ADecrypt nonce [] ct (IoBuf buf)) [] = Done (c2', r2) /\ ar_out r1 <> ar_out r2.
Proof.
  destruct (used_exists OpenSSL KChachaPoly) as (c1 & rs1 & _ & A1 & _). destruct (used_exists BoringSSL KChachaPoly) as (c2 & rs2 & _ & A2 & _).
  destruct (C12_refuted_lemma toy OpenSSL KChachaPoly key32 c1 nonce12 9 (repeat 7 17) 1 A1) as (c1' & E1);
    [intros [_ K]; discriminate K|reflexivity|vm_compute; discriminate|reflexivity|].
  assert (O2 : exists c2', astep toy c2 (ADecrypt nonce12 [] [IoBuf [9]; IoBuf (repeat 7 17)] (IoBuf [1])) [] =
    Done (c2', {| ar_st := kInvalidArgument; ar_n := 0; ar_out := IoBuf [1] |})).
  { destruct (areach_config _ _ _ _ _ A2) as ((Hn & Ht) & _ & _ & Hi). unfold astep, aead_decrypt.
    rewrite (proj2 Hi (conj eq_refl eq_refl)). unfold bssl_decrypt. rewrite Hn. eexists. vm_compute. reflexivity. }
  destruct O2 as (c2' & E2).
  exists toy, key32, c1, c2, nonce12, [IoBuf [9]; IoBuf (repeat 7 17)], [1], c1', c2'. eexists _, _.
  split; [exact toy_ok|]. split; [exact A1|]. split; [exact A2|]. split; [repeat constructor|].
  split; [exact E1|]. split; [exact E2|]. cbn [ar_out]. vm_compute. discriminate.
Qed.

Lemma C91null : exists P key c1 c2 nonce ct buf c2' r2, prims_ok P /\
  areach P OpenSSL KChachaPoly key c1 /\ areach P BoringSSL KChachaPoly key c2 /\
  astep P c1 (ADecrypt nonce [] ct (IoBuf buf)) [] = Undef UbNullDeref /\
  astep P c2 (ADecrypt nonce [] ct (IoBuf buf)) [] = Done (c2', r2) /\ ar_st r2 = kInvalidArgument.
Proof.
  destruct (used_exists OpenSSL KChachaPoly) as (c1 & rs1 & _ & A1 & _). destruct (used_exists BoringSSL KChachaPoly) as (c2 & rs2 & _ & A2 & _).
  exists toy, key32, c1, c2, nonce12, [IoNull 16], [], c2. eexists.
  split; [exact toy_ok|]. split; [exact A1|]. split; [exact A2|].
  split; [apply (C58_refuted_lemma toy OpenSSL KChachaPoly key32); [exact A1|intros [_ K]; discriminate K|reflexivity]|].
  destruct (areach_config _ _ _ _ _ A2) as ((Hn & Ht) & _ & _ & Hi). unfold astep, aead_decrypt.
  rewrite (proj2 Hi (conj eq_refl eq_refl)). unfold bssl_decrypt. rewrite Hn. split; reflexivity.
Qed.

(* ---- cases ---- *)
Definition CC : suite := CHACHA20_POLY1305_SHA256.
(* A malformed handshake message, data afterwards, a forged record; a null
   pointer to protect, data to protect. *)
Definition build_ops : list (fop * faults) :=
  [(FUnprotect [IoBuf (framed (dir_seal toy (f_in (fargs CC)) (tls_header 22) (inner ty_handshake [24; 0; 0; 2; 7] 0)))], []);
   (FUnprotect [IoBuf (records toy (dir_next (f_in (fargs CC))) [[5; 6]])], []);
   (FUnprotect [IoBuf (tls_header 20 ++ repeat 3 20)], []);
   (FProtect [IoBuf [1]; IoNull 2], []); (FProtect [IoBuf [7; 7]], [])].
Lemma build_ops_ok : fops_ok build_ops.
Proof.
  unfold build_ops, fops_ok. repeat apply Forall_cons; try apply Forall_nil; cbn [fst];
    try (apply unprotect_ok; [vm_compute; reflexivity|repeat constructor]); vm_compute; reflexivity.
Qed.
Lemma build_case : exists f rs, protector toy OpenSSL toy_al (fargs CC) build_ops rs f /\ no_failures build_ops /\ length rs = 5%nat.
Proof.
  destruct (fplay_check OpenSSL (fargs CC) build_ops (fun f rs => Nat.eqb (length rs) 5)) as (f & rs & Hp & Hc);
    [vm_compute; reflexivity|reflexivity|reflexivity|exact build_ops_ok|].
  exists f, rs. split; [exact Hp|]. split; [repeat constructor|]. apply PeanoNat.Nat.eqb_eq. exact Hc.
Qed.
(* With AES-GCM: a failing and a working Protect. *)
Definition aes_ops : list (fop * faults) := [(FProtect [IoBuf [1]], [false; true]); (FProtect [IoBuf [7; 7]], [])].
Lemma aes_case : exists f b, protector toy OpenSSL toy_al (fargs S0) aes_ops [FProtected kInternal []; FProtected kOk [b]] f.
Proof.
  destruct (fplay_check OpenSSL (fargs S0) aes_ops (fun f rs =>
    match rs with [FProtected kInternal []; FProtected kOk [b]] => true | _ => false end)) as (f & rs & Hp & Hc);
    [vm_compute; reflexivity|reflexivity|reflexivity|repeat constructor|].
  destruct rs as [|[[] [|]| | |] [|[[] [|b [|]]| | |] [|]]]; try discriminate. exists f, b. exact Hp.
Qed.
Lemma crypter_case : exists x rs, connection toy OpenSSL (arg CC) [(CUpdateKey, []); (CProtect HANDSHAKE [IoBuf [1]] (zeros 30), []); (CUnprotect (tls_header 17) [IoBuf (zeros 17)] (zeros 3), [])] rs x /\
  map (fun r => match r with CUpdated kOk | CProtected S_OK _ _ | CUnprotected S_INTERNAL_ERROR _ _ => true | _ => false end) rs = [true; true; true].
Proof.
  destruct (play_check toy OpenSSL (arg CC) [(CUpdateKey, []); (CProtect HANDSHAKE [IoBuf [1]] (zeros 30), []); (CUnprotect (tls_header 17) [IoBuf (zeros 17)] (zeros 3), [])]
    (fun _ rs => forallb (fun b => b) (map (fun r => match r with CUpdated kOk | CProtected S_OK _ _ | CUnprotected S_INTERNAL_ERROR _ _ => true | _ => false end) rs) && Nat.eqb (length rs) 3))
    as (x & rs & R & H); [vm_compute; reflexivity|].
  exists x, rs. split.
  - split; [exact toy_ok|]. split; [reflexivity|]. split; [reflexivity|]. split; [|exact R].
    repeat apply Forall_cons; try apply Forall_nil; cbn [fst cop_ok]; try exact I; [reflexivity|].
    split; [apply bytes_check; reflexivity|]. split; [repeat constructor|]. split; [apply bytes_check; reflexivity|reflexivity].
  - apply andb_prop in H. destruct H as [H L]. apply PeanoNat.Nat.eqb_eq in L. destruct rs as [|r1 [|r2 [|r3 [|]]]]; try discriminate L.
    cbn [map forallb] in H. apply andb_prop in H. destruct H as [H1 H]. apply andb_prop in H. destruct H as [H2 H]. apply andb_prop in H. destruct H as [H3 _].
    cbn [map]. rewrite H1, H2, H3. reflexivity.
Qed.
