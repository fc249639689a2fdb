From Coq Require Import List NArith ZArith Bool Lia ZifyBool ZifyNat ZifyN.
From Verif Require Import Base BaseProofs Aead Hkdf HalfConn SpecAead AeadProofs SpecTls
  HkdfProofs HalfProofs HalfRun.
Import ListNotations.
Local Open Scope N_scope.

Lemma dir_usableb_spec : forall d, dir_usableb d = true <-> dir_usable d.
Proof.
  intros d. unfold dir_usableb, dir_usable. destruct (d_broken d); cbn.
  - split; [discriminate|intros [? _]; discriminate].
  - rewrite N.ltb_lt. tauto.
Qed.

Lemma dir_usableb_false : forall d, dir_usableb d = false <-> ~ dir_usable d.
Proof. intros d. rewrite <- dir_usableb_spec. destruct (dir_usableb d); split; congruence. Qed.

(* The nonces used so far. *)
Definition used_inv (P : prims) (s : suite) (q : N) (S0 : bytes) (h : half) (d : dir) : Prop :=
  d_suite d = s /\
  (d_broken d = false ->
     d_secret d = nth_secret P s S0 (N.to_nat (hc_epoch h))) /\
  exists cnt : N -> N,
    (forall e, nonces h e =
       map (fun i => record_nonce (traffic_iv P s (nth_secret P s S0 (N.to_nat e)))
                       (key_start q e + N.of_nat i)) (seq 0 (N.to_nat (cnt e)))) /\
    (forall e, key_start q e + cnt e <= two64) /\
    (forall e, cnt e <> 0 -> lenN (traffic_iv P s (nth_secret P s S0 (N.to_nat e))) = 12) /\
    (forall e, hc_epoch h < e -> cnt e = 0) /\
    (d_broken d = false -> d_seq d = key_start q (hc_epoch h) + cnt (hc_epoch h)) /\
    (forall e n, In (e, n) (hc_used h) -> e <= hc_epoch h).

Lemma nonces_snoc : forall h h' e n, hc_used h' = hc_used h ++ [(e, n)] ->
  forall e', nonces h' e' = if e =? e' then nonces h e' ++ [n] else nonces h e'.
Proof.
  intros h h' e n E e'. unfold nonces. rewrite E, filter_app, map_app. cbn [filter fst].
  destruct (e =? e'); [reflexivity|]. apply app_nil_r.
Qed.

Lemma used_inv_next : forall P s q S0 h h' d,
  half_rel P h d -> used_inv P s q S0 h d -> dir_usable d -> hc_epoch h' = hc_epoch h ->
  hc_used h' = hc_used h ++ [(hc_epoch h, dir_nonce P d)] ->
  used_inv P s q S0 h' (dir_next d).
Proof.
  intros P s q S0 h h' d R (Es & Esec & cnt & N1 & N2 & N3 & N4 & N5 & N6) [Hb Hu] Eep Eused.
  split; [exact Es|]. split; [rewrite Eep; exact Esec|].
  exists (fun e => if e =? hc_epoch h then cnt e + 1 else cnt e).
  specialize (N5 Hb). specialize (Esec Hb).
  split.
  { intros e. rewrite (nonces_snoc _ _ _ _ Eused e). rewrite (N.eqb_sym (hc_epoch h) e).
    destruct (N.eqb_spec e (hc_epoch h)) as [->|Hne]; [|apply N1].
    rewrite N1. replace (N.to_nat (cnt (hc_epoch h) + 1)) with (S (N.to_nat (cnt (hc_epoch h)))) by lia.
    rewrite seq_S, map_app. cbn [map]. f_equal. f_equal.
    unfold dir_nonce. rewrite <- Es. rewrite N5, Esec, Es. f_equal. lia. }
  split.
  { intros e. destruct (N.eqb_spec e (hc_epoch h)) as [Ee|]; [|apply N2]. rewrite Ee. lia. }
  split.
  { intros e He. cbv beta in He. destruct (N.eqb_spec e (hc_epoch h)) as [Ee|]; [|apply N3; exact He].
    rewrite Ee. rewrite <- Esec, <- Es. destruct (hr_keys _ _ _ R Hb) as [_ <-]. apply (hr_nonce_len _ _ _ R). }
  split.
  { intros e He. rewrite Eep in He. destruct (N.eqb_spec e (hc_epoch h)); [lia|]. apply N4; lia. }
  split.
  { intros _. rewrite Eep, N.eqb_refl. cbn [dir_next d_seq]. rewrite N5. lia. }
  intros e n Hin. rewrite Eused in Hin. apply in_app_iff in Hin. rewrite Eep.
  destruct Hin as [Hin|[E|[]]]; [eapply N6; eauto|]. inversion E. lia.
Qed.

Lemma used_inv_upd : forall P s q S0 h h' d,
  used_inv P s q S0 h d ->
  hc_used h' = hc_used h -> hc_epoch h' = hc_epoch h + 1 ->
  used_inv P s q S0 h' (dir_update P d).
Proof.
  intros P s q S0 h h' d (Es & Esec & cnt & N1 & N2 & N3 & N4 & N5 & N6) Eused Eep.
  split; [exact Es|]. split.
  { intros Hb. cbn in Hb |- *. rewrite (Esec Hb), Eep, Es.
    replace (N.to_nat (hc_epoch h + 1)) with (S (N.to_nat (hc_epoch h))) by lia. reflexivity. }
  exists cnt. repeat split.
  - intros e. unfold nonces. rewrite Eused. apply N1.
  - exact N2.
  - exact N3.
  - intros e He. apply N4. lia.
  - intros _. rewrite Eep. rewrite N4 by lia. unfold key_start.
    destruct (N.eqb_spec (hc_epoch h + 1) 0); [lia|]. reflexivity.
  - intros e n Hin. rewrite Eused in Hin. rewrite Eep. pose proof (N6 _ _ Hin). lia.
Qed.

Lemma used_inv_break : forall P s q S0 h h' d,
  used_inv P s q S0 h d -> hc_used h' = hc_used h -> hc_epoch h' = hc_epoch h ->
  used_inv P s q S0 h' (dir_break d).
Proof.
  intros P s q S0 h h' d (Es & Esec & cnt & N1 & N2 & N3 & N4 & N5 & N6) Eused Eep.
  split; [exact Es|]. split; [cbn; discriminate|].
  exists cnt. repeat split.
  - intros e. unfold nonces. rewrite Eused. apply N1.
  - exact N2.
  - exact N3.
  - intros e He. apply N4. lia.
  - cbn; discriminate.
  - intros e n Hin. rewrite Eused in Hin. rewrite Eep. exact (N6 _ _ Hin).
Qed.

(* Consequences. *)
Lemma NoDup_map_in : forall (A B : Type) (f : A -> B) l,
  (forall x y, In x l -> In y l -> f x = f y -> x = y) -> NoDup l -> NoDup (map f l).
Proof.
  intros A B f l. induction l as [|a l IH]; intros Hf Hn; cbn; [constructor|].
  inversion Hn; subst. constructor.
  - intro Hin. apply in_map_iff in Hin. destruct Hin as (y & E & Hy).
    assert (y = a) by (apply Hf; cbn; auto). subst; contradiction.
  - apply IH; auto. intros x y Hx Hy; apply Hf; cbn; auto.
Qed.

Lemma nonces_NoDup : forall P s q S0 h d e, used_inv P s q S0 h d -> NoDup (nonces h e).
Proof.
  intros P s q S0 h d e (_ & _ & cnt & N1 & N2 & N3 & _). rewrite N1.
  destruct (N.eq_dec (cnt e) 0) as [E0|E0]; [rewrite E0; constructor|].
  specialize (N3 e E0). specialize (N2 e).
  assert (Hinj : forall n m, n + N.of_nat m <= key_start q e + cnt e -> key_start q e <= n ->
    NoDup (map (fun i => record_nonce (traffic_iv P s (nth_secret P s S0 (N.to_nat e)))
                       (n + N.of_nat i)) (seq 0 m))).
  { intros n m Hm Hn. apply NoDup_map_in; [|apply seq_NoDup].
    intros i j Hi Hj E. apply in_seq in Hi, Hj. apply record_nonce_inj in E; lia. }
  apply Hinj; lia.
Qed.

Lemma NoDup_pairs : forall (l : list (N * bytes)),
  (forall e, NoDup (map snd (filter (fun u => fst u =? e) l))) -> NoDup l.
Proof.
  induction l as [|[e n] l IH]; intros H; constructor.
  - intro Hin. specialize (H e). cbn in H. rewrite N.eqb_refl in H. cbn in H.
    inversion H; subst. apply H2. apply in_map_iff. exists (e, n). split; [reflexivity|].
    apply filter_In. split; [exact Hin|]. apply N.eqb_refl.
  - apply IH. intros e'. specialize (H e'). cbn in H. destruct (e =? e'); [|exact H].
    cbn in H. inversion H; assumption.
Qed.

(* One step. *)
Lemma hstep_spec : forall P lib s q S0 h d op fs,
  prims_ok P -> half_rel P h d -> used_inv P s q S0 h d -> hop_ok op ->
  exists h' r, hstep P lib h op fs = Done (h', r) /\
    half_rel P h' (spec_step P d op r) /\ used_inv P s q S0 h' (spec_step P d op r).
Proof.
  intros P lib s q S0 h d op fs HP R U Hop. destruct op as [aad pt out|aad ct out|]; cbn [hop_ok hstep] in *.
  - destruct Hop as (H1 & H2 & H3).
    destruct (half_encrypt_spec P h d aad pt out fs HP R H1 H2 H3)
      as (h' & st & n & buf' & fs' & E & _ & Eep & _ & _ & Hun & Hus).
    rewrite E. cbn [obind]. do 2 eexists; split; [reflexivity|]. cbn [spec_step].
    destruct (dir_usable_dec d) as [Hu|Hu].
    + destruct (Hus Hu) as (R' & Eu & _). apply dir_usableb_spec in Hu as Hub. rewrite Hub.
      split; [exact R'|]. eapply used_inv_next; eauto.
    + destruct (Hun Hu) as (-> & _). apply dir_usableb_false in Hu. rewrite Hu. auto.
  - destruct Hop as (H1 & H2 & H3 & H4).
    destruct (half_decrypt_spec P h d aad ct out fs HP R H1 H2 H3 H4)
      as (h' & st & n & buf' & fs' & E & _ & Eep & _ & _ & Hun & Hus).
    rewrite E. cbn [obind]. do 2 eexists; split; [reflexivity|]. cbn [spec_step].
    destruct (dir_usable_dec d) as [Hu|Hu].
    + destruct (Hus Hu) as (R' & Eu & _). apply dir_usableb_spec in Hu as Hub. rewrite Hub.
      split; [exact R'|]. eapply used_inv_next; eauto.
    + destruct (Hun Hu) as (-> & _). apply dir_usableb_false in Hu. rewrite Hu. auto.
  - destruct (half_update_spec P lib h d fs HP R) as (h' & st & fs' & E & Eu & Hok & Hf & _).
    rewrite E. cbn [obind]. do 2 eexists; split; [reflexivity|]. cbn [spec_step].
    destruct st; try (destruct Hf as [R' Ee]; [discriminate|]; split; [exact R'|];
      eapply used_inv_break; eauto).
    destruct (Hok eq_refl) as [R' Ee]. split; [exact R'|]. eapply used_inv_upd; eauto.
Qed.

Lemma hrun_spec : forall P lib s q S0 ops h d,
  prims_ok P -> half_rel P h d -> used_inv P s q S0 h d -> hops_ok ops ->
  exists h' rs, hrun P lib h ops = Done (h', rs) /\ length rs = length ops /\
    half_rel P h' (spec_run P d ops rs) /\ used_inv P s q S0 h' (spec_run P d ops rs).
Proof.
  intros P lib s q S0 ops. induction ops as [|[op fs] ops IH]; intros h d HP R U Hok.
  - exists h, []. cbn. auto.
  - inversion Hok; subst.
    destruct (hstep_spec P lib s q S0 h d op fs HP R U H1) as (h1 & r & E & R1 & U1).
    destruct (IH h1 _ HP R1 U1 H2) as (h2 & rs & E2 & L2 & R2 & U2).
    exists h2, (r :: rs). cbn [hrun]. rewrite E. cbn [obind]. rewrite E2. cbn [obind spec_run length].
    auto.
Qed.

Lemma used_inv_start : forall P s q S0 h, q <= two64 ->
  hc_epoch h = 0 -> hc_used h = [] -> used_inv P s q S0 h (dir_start s S0 q).
Proof.
  intros P s q S0 h Hq Ee Eu. split; [reflexivity|]. split; [intros _; rewrite Ee; reflexivity|].
  exists (fun _ => 0). unfold nonces. rewrite Eu, Ee. repeat split; auto; try lia.
  - intros e. unfold key_start. destruct (e =? 0); lia.
  - intros _. unfold key_start. cbn. lia.
  - intros e n [].
Qed.

Lemma hreach_inv : forall P lib s q S0 ops rs h,
  prims_ok P -> q < two64 -> hops_ok ops -> hreach P lib s q S0 ops rs h ->
  half_rel P h (spec_run P (dir_start s S0 q) ops rs) /\
  used_inv P s q S0 h (spec_run P (dir_start s S0 q) ops rs) /\
  length rs = length ops.
Proof.
  intros P lib s q S0 ops rs h HP Hq Hok (h0 & fs & fs' & Ec & Er).
  destruct (half_create_spec P lib s q S0 fs HP Hq) as (r & fs1 & E & Hr & _).
  rewrite Ec in E. inversion E; subst. destruct (Hr h0 eq_refl) as (R & Ee & Eu & _).
  destruct (hrun_spec P lib s q S0 ops h0 (dir_start s S0 q) HP R) as (h' & rs' & E' & L & R' & U').
  - apply used_inv_start; [lia|exact Ee|exact Eu].
  - exact Hok.
  - rewrite Er in E'. inversion E'; subst. auto.
Qed.

(* spec_run in terms of counts *)
Lemma spec_run_suite : forall P ops rs d, d_suite (spec_run P d ops rs) = d_suite d.
Proof.
  intros P ops. induction ops as [|[op fs] ops IH]; intros [|r rs] d; cbn; try reflexivity.
  rewrite IH. unfold spec_step. destruct op; try (destruct (dir_usableb d); reflexivity).
  destruct r as [| [] ]; reflexivity.
Qed.

Lemma spec_run_broken : forall P ops rs d, d_broken d = true -> d_broken (spec_run P d ops rs) = true.
Proof.
  intros P ops. induction ops as [|[op fs] ops IH]; intros [|r rs] d H; cbn; try assumption.
  apply IH. unfold spec_step. destruct op; try (destruct (dir_usableb d); exact H).
  destruct r as [| [] ]; try reflexivity. exact H.
Qed.

Lemma nth_secret_shift : forall P s S0 k,
  nth_secret P s (next_secret P s S0) k = nth_secret P s S0 (S k).
Proof. intros P s S0 k. induction k; [reflexivity|]. cbn. rewrite IHk. reflexivity. Qed.

(* The results have the shape of the operations. *)
Fixpoint shaped (ops : list (hop * faults)) (rs : list hres) : Prop :=
  match ops, rs with
  | [], [] => True
  | (HUpdateKey, _) :: ops', HUpdated _ :: rs' => shaped ops' rs'
  | (HEncrypt _ _ _, _) :: ops', HCrypt _ _ _ :: rs' => shaped ops' rs'
  | (HDecrypt _ _ _, _) :: ops', HCrypt _ _ _ :: rs' => shaped ops' rs'
  | _, _ => False
  end.

Lemma hrun_shaped : forall P lib ops h h' rs, hrun P lib h ops = Done (h', rs) -> shaped ops rs.
Proof.
  intros P lib ops. induction ops as [|[op fs] ops IH]; intros h h' rs H; cbn in H.
  - inversion H; exact I.
  - destruct (hstep P lib h op fs) as [[h1 r]|u|] eqn:E; cbn in H; try discriminate.
    destruct (hrun P lib h1 ops) as [[h2 rs2]|u|] eqn:E2; cbn in H; try discriminate.
    inversion H; subst. specialize (IH _ _ _ E2). destruct op; cbn in E |- *.
    + destruct (half_encrypt P h aad pt (IoBuf out) fs) as [[[[h3 [st n]] o] fs3]|u|]; inversion E; subst; exact IH.
    + destruct (half_decrypt P h aad ct (IoBuf out) fs) as [[[[h3 [st n]] o] fs3]|u|]; inversion E; subst; exact IH.
    + destruct (half_update_key P lib h fs) as [[[h3 st] fs3]|u|]; inversion E; subst; exact IH.
Qed.

Lemma spec_run_ok : forall P ops rs d, shaped ops rs -> no_failed_update rs ->
  d_broken d = false ->
  d_broken (spec_run P d ops rs) = false /\
  d_secret (spec_run P d ops rs) = nth_secret P (d_suite d) (d_secret d) (updates rs).
Proof.
  intros P ops. induction ops as [|[op fs] ops IH]; intros [|r rs] d Sh Hn Hb; cbn in Sh |- *;
    try contradiction; try (destruct op; contradiction); auto.
  assert (Hn' : no_failed_update rs) by (intros st Hin; apply Hn; right; exact Hin).
  destruct op; destruct r as [st n o|st]; try contradiction.
  - cbn [spec_step]. destruct (dir_usableb d); [apply (IH rs (dir_next d) Sh Hn' Hb)|apply (IH rs d Sh Hn' Hb)].
  - cbn [spec_step]. destruct (dir_usableb d); [apply (IH rs (dir_next d) Sh Hn' Hb)|apply (IH rs d Sh Hn' Hb)].
  - assert (st = kOk) by (apply Hn; left; reflexivity). subst. cbn [spec_step].
    destruct (IH rs (dir_update P d) Sh Hn' Hb) as [A B]. split; [exact A|].
    rewrite B. cbn [dir_update d_suite d_secret]. apply nth_secret_shift.
Qed.

Lemma spec_run_failed : forall P ops rs d st, shaped ops rs -> In (HUpdated st) rs -> st <> kOk ->
  d_broken (spec_run P d ops rs) = true.
Proof.
  intros P ops. induction ops as [|[op fs] ops IH]; intros [|r rs] d st Sh Hin Hst; cbn in Sh |- *;
    try contradiction; try (destruct op; contradiction).
  destruct Hin as [->|Hin].
  - destruct op; try contradiction. apply spec_run_broken. cbn [spec_step].
    destruct st; try reflexivity. contradiction.
  - eapply IH; eauto. destruct op; destruct r; try contradiction; exact Sh.
Qed.

(* ------------------------------------------------------------------ *)
(* The properties *)

Lemma C04_lemma : forall P lib s q S ops rs h,
  prims_ok P -> q < two64 -> hops_ok ops -> hreach P lib s q S ops rs h ->
  NoDup (hc_used h).
Proof.
  intros P lib s q S ops rs h HP Hq Hok Hr.
  destruct (hreach_inv _ _ _ _ _ _ _ _ HP Hq Hok Hr) as (_ & U & _).
  apply NoDup_pairs. intros e. exact (nonces_NoDup _ _ _ _ _ _ e U).
Qed.

Lemma refused : forall P lib h d op fs, half_rel P h d -> ~ dir_usable d -> is_record_op op ->
  hstep P lib h op fs = Done (h, HCrypt kInternal 0 (IoBuf (op_out op))).
Proof.
  intros P lib h d op fs R Hu Hop.
  pose proof (half_unusable _ _ _ R Hu) as Hf.
  destruct op; cbn [hstep op_out]; try (exfalso; apply Hop; reflexivity);
    unfold half_encrypt, half_decrypt; destruct (hr_aead _ _ _ R) as (c & -> & _); rewrite Hf; reflexivity.
Qed.

Lemma consumes : forall P lib h d op fs, prims_ok P -> half_rel P h d -> dir_usable d ->
  is_record_op op -> hop_ok op ->
  exists h' st n out, hstep P lib h op fs = Done (h', HCrypt st n out) /\
    hc_epoch h' = hc_epoch h /\
    hc_used h' = hc_used h ++ [(hc_epoch h, dir_nonce P d)].
Proof.
  intros P lib h d op fs HP R Hu Hop Hok.
  destruct op as [aad pt out|aad ct out|]; [| |exfalso; apply Hop; reflexivity]; cbn [hop_ok hstep] in *.
  - destruct Hok as (H1 & H2 & H3).
    destruct (half_encrypt_spec P h d aad pt out fs HP R H1 H2 H3)
      as (h' & st & n & buf' & fs' & E & _ & Eep & _ & _ & _ & Hus).
    rewrite E. destruct (Hus Hu) as (_ & Eu & _). cbn. eauto 8.
  - destruct Hok as (H1 & H2 & H3 & H4).
    destruct (half_decrypt_spec P h d aad ct out fs HP R H1 H2 H3 H4)
      as (h' & st & n & buf' & fs' & E & _ & Eep & _ & _ & _ & Hus).
    rewrite E. destruct (Hus Hu) as (_ & Eu & _). cbn. eauto 8.
Qed.

Lemma nonces_len : forall P s q S0 h d, used_inv P s q S0 h d -> d_broken d = false ->
  d_seq d = key_start q (hc_epoch h) + lenN (nonces h (hc_epoch h)).
Proof.
  intros P s q S0 h d (_ & _ & cnt & N1 & _ & _ & _ & N5 & _) Hb. rewrite N5 by exact Hb.
  rewrite N1. unfold lenN. rewrite map_length, seq_length. lia.
Qed.

Lemma C05_lemma : forall P lib s q S ops rs h,
  prims_ok P -> q < two64 -> hops_ok ops -> hreach P lib s q S ops rs h ->
  (forall e, key_start q e + lenN (nonces h e) <= two64) /\
  (key_start q (hc_epoch h) + lenN (nonces h (hc_epoch h)) = two64 ->
   forall op fs, is_record_op op ->
     hstep P lib h op fs = Done (h, HCrypt kInternal 0 (IoBuf (op_out op)))) /\
  (forall aad pt out h1, no_failed_update rs ->
     hstep P lib h HUpdateKey [] = Done (h1, HUpdated kOk) ->
     Forall iov_valid aad -> Forall iov_valid pt ->
     hop_ok (HEncrypt aad pt out) -> sum_lens pt + 16 <= lenN out ->
     exists h2 out', hstep P lib h1 (HEncrypt aad pt out) [] =
       Done (h2, HCrypt kOk (sum_lens pt + 16) out')).
Proof.
  intros P lib s q S ops rs h HP Hq Hok Hr.
  destruct (hreach_inv _ _ _ _ _ _ _ _ HP Hq Hok Hr) as (R & U & _).
  split; [|split].
  - intros e. destruct U as (_ & _ & cnt & N1 & N2 & _). rewrite N1.
    unfold lenN. rewrite map_length, seq_length. specialize (N2 e). lia.
  - intros Hex op fs Hop. eapply refused; eauto. intros [Hb Hlt].
    rewrite (nonces_len _ _ _ _ _ _ U Hb) in Hlt. lia.
  - intros aad pt out h1 Hn Hup Va Vp (H1 & H2 & H3) Hle.
    set (d := spec_run P (dir_start s S q) ops rs) in *.
    destruct Hr as (h0 & fs & fs' & Ec & Er). apply hrun_shaped in Er as Sh.
    destruct (spec_run_ok P ops rs (dir_start s S q) Sh Hn eq_refl) as [Hb _].
    cbn [hstep] in Hup.
    destruct (half_update_spec P lib h d [] HP R) as (h' & st & fs2 & E & _ & Ho & _ & Hnil).
    rewrite E in Hup. cbn in Hup. inversion Hup; subst.
    destruct (Ho eq_refl) as [R1 _].
    destruct (half_encrypt_spec P h1 (dir_update P d) aad pt out [] HP R1 H1 H2 H3)
      as (h2 & st & n & buf' & fs3 & E2 & _ & _ & _ & _ & _ & Hus).
    destruct Hus as (_ & _ & K1 & K2); [split; [exact Hb|cbn; unfold two64; lia]|].
    destruct (K2 Va Vp Hle eq_refl) as [-> _]. destruct (K1 eq_refl) as (_ & _ & -> & _).
    cbn [hstep]. rewrite E2. cbn. eauto.
Qed.

Lemma C06_lemma : forall P lib s q S ops rs h,
  prims_ok P -> q < two64 -> hops_ok ops -> hreach P lib s q S ops rs h ->
  (forall e, nonces h e =
     map (fun i => record_nonce (traffic_iv P s (nth_secret P s S (N.to_nat e)))
                     (key_start q e + N.of_nat i)) (seq 0 (length (nonces h e)))) /\
  (forall op fs, is_record_op op -> hop_ok op ->
     hstep P lib h op fs = Done (h, HCrypt kInternal 0 (IoBuf (op_out op))) \/
     exists h' st n out nonce, hstep P lib h op fs = Done (h', HCrypt st n out) /\
       hc_epoch h' = hc_epoch h /\
       hc_used h' = hc_used h ++ [(hc_epoch h, nonce)]) /\
  (no_failed_update rs -> key_start q (hc_epoch h) + lenN (nonces h (hc_epoch h)) < two64 ->
   forall op fs, is_record_op op -> hop_ok op ->
     exists h' st n out nonce, hstep P lib h op fs = Done (h', HCrypt st n out) /\
       hc_epoch h' = hc_epoch h /\
       hc_used h' = hc_used h ++ [(hc_epoch h, nonce)]).
Proof.
  intros P lib s q S ops rs h HP Hq Hok Hr.
  destruct (hreach_inv _ _ _ _ _ _ _ _ HP Hq Hok Hr) as (R & U & _).
  split; [|split].
  - intros e. destruct U as (_ & _ & cnt & N1 & N2 & _).
    rewrite (N1 e) at 1. f_equal. rewrite N1, map_length, seq_length. reflexivity.
  - intros op fs Hop Hk. destruct (dir_usable_dec (spec_run P (dir_start s S q) ops rs)) as [Hu|Hu].
    + right. destruct (consumes _ lib _ _ op fs HP R Hu Hop Hk) as (h' & st & n & o & H). eauto 8.
    + left. eapply refused; eauto.
  - intros Hn Hlt op fs Hop Hk.
    destruct Hr as (h0 & fs0 & fs' & Ec & Er). apply hrun_shaped in Er as Sh.
    destruct (spec_run_ok P ops rs (dir_start s S q) Sh Hn eq_refl) as [Hb _].
    assert (Hu : dir_usable (spec_run P (dir_start s S q) ops rs)).
    { split; [exact Hb|]. rewrite (nonces_len _ _ _ _ _ _ U Hb). exact Hlt. }
    destruct (consumes _ lib _ _ op fs HP R Hu Hop Hk) as (h' & st & n & o & H). eauto 8.
Qed.

(* The number of installed keys is the number of successful updates. *)
Lemma hrun_epoch : forall P lib ops h d h' rs, prims_ok P -> half_rel P h d -> hops_ok ops ->
  hrun P lib h ops = Done (h', rs) -> hc_epoch h' = hc_epoch h + N.of_nat (updates rs).
Proof.
  intros P lib ops. induction ops as [|[op fs] ops IH]; intros h d h' rs HP R Hok H; cbn in H.
  - inversion H; subst. cbn. lia.
  - inversion Hok as [|? ? Hop Hops]; subst. cbn [fst] in Hop.
    destruct (hstep P lib h op fs) as [[h1 r]|u|] eqn:E; cbn in H; try discriminate.
    destruct (hrun P lib h1 ops) as [[h2 rs2]|u|] eqn:E2; cbn in H; try discriminate.
    inversion H; subst. clear H.
    destruct op as [aad pt out|aad ct out|]; cbn [hstep hop_ok] in *.
    + destruct Hop as (H1 & H2 & H3).
      destruct (half_encrypt_spec P h d aad pt out fs HP R H1 H2 H3)
        as (h3 & st & n & buf' & fs' & E3 & _ & Eep & _ & _ & Hun & Hus).
      rewrite E3 in E. cbn in E. inversion E; subst. cbn [updates].
      destruct (dir_usable_dec d) as [Hu|Hu].
      * destruct (Hus Hu) as (R' & _). rewrite (IH _ _ _ _ HP R' Hops E2). lia.
      * destruct (Hun Hu) as (-> & _). rewrite (IH _ _ _ _ HP R Hops E2). lia.
    + destruct Hop as (H1 & H2 & H3 & H4).
      destruct (half_decrypt_spec P h d aad ct out fs HP R H1 H2 H3 H4)
        as (h3 & st & n & buf' & fs' & E3 & _ & Eep & _ & _ & Hun & Hus).
      rewrite E3 in E. cbn in E. inversion E; subst. cbn [updates].
      destruct (dir_usable_dec d) as [Hu|Hu].
      * destruct (Hus Hu) as (R' & _). rewrite (IH _ _ _ _ HP R' Hops E2). lia.
      * destruct (Hun Hu) as (-> & _). rewrite (IH _ _ _ _ HP R Hops E2). lia.
    + destruct (half_update_spec P lib h d fs HP R) as (h3 & st & fs' & E3 & Eu & Ho & Hf & _).
      rewrite E3 in E. cbn in E. inversion E; subst.
      destruct st; cbn [updates];
        try (destruct Hf as [R' Ee]; [discriminate|]; rewrite (IH _ _ _ _ HP R' Hops E2); lia).
      destruct (Ho eq_refl) as [R' Ee]. rewrite (IH _ _ _ _ HP R' Hops E2). lia.
Qed.

Lemma C07_lemma : forall P lib s q S ops rs h,
  prims_ok P -> q < two64 -> hops_ok ops -> hreach P lib s q S ops rs h ->
  no_failed_update rs ->
  let Sk := nth_secret P s S (updates rs) in
  let k := N.of_nat (updates rs) in
  let nonce := record_nonce (traffic_iv P s Sk) (key_start q k + lenN (nonces h k)) in
  hc_epoch h = k /\
  (forall aad pt out fs h' n out', hop_ok (HEncrypt aad pt out) ->
     hstep P lib h (HEncrypt aad pt out) fs = Done (h', HCrypt kOk n out') ->
     n = sum_lens pt + 16 /\
     out' = IoBuf (seal P (spec_alg s) (traffic_key P s Sk) nonce (iov_concat aad)
                     (iov_concat pt) ++ dropN n out)) /\
  (forall aad ct out fs h' n out', hop_ok (HDecrypt aad ct out) ->
     hstep P lib h (HDecrypt aad ct out) fs = Done (h', HCrypt kOk n out') ->
     exists msg, lenN msg = n /\ out' = IoBuf (msg ++ dropN n out) /\
       iov_concat ct = seal P (spec_alg s) (traffic_key P s Sk) nonce (iov_concat aad) msg) /\
  (forall fs h', hstep P lib h HUpdateKey fs = Done (h', HUpdated kOk) ->
     hc_epoch h' = k + 1 /\ nonces h' (k + 1) = []).
Proof.
  intros P lib s q S ops rs h HP Hq Hok Hr Hn Sk k nonce.
  destruct (hreach_inv _ _ _ _ _ _ _ _ HP Hq Hok Hr) as (R & U & _).
  set (d := spec_run P (dir_start s S q) ops rs) in *.
  destruct Hr as (h0 & fs0 & fs' & Ec & Er). apply hrun_shaped in Er as Sh.
  destruct (spec_run_ok P ops rs (dir_start s S q) Sh Hn eq_refl) as [Hb Hsec].
  destruct (half_create_spec P lib s q S fs0 HP Hq) as (r & fs1 & E & Hr & _).
  rewrite Ec in E. inversion E; subst r fs1. destruct (Hr h0 eq_refl) as (R0 & Ee & Eu & _).
  assert (Eep : hc_epoch h = k).
  { rewrite (hrun_epoch P lib ops h0 _ h rs HP R0 Hok Er). rewrite Ee. reflexivity. }
  split; [exact Eep|].
  assert (Hseal : forall a m, dir_seal P d a m =
    seal P (spec_alg s) (traffic_key P s Sk) nonce a m).
  { intros a m. unfold dir_seal.
    assert (Ed : d_suite d = s) by (unfold d; rewrite spec_run_suite; reflexivity).
    rewrite Ed. unfold nonce. rewrite <- Eep.
    rewrite <- (nonces_len _ _ _ _ _ _ U Hb).
    replace (d_secret d) with Sk by (symmetry; exact Hsec). reflexivity. }
  assert (Hus : forall op fs h' st n o, is_record_op op ->
    hstep P lib h op fs = Done (h', HCrypt st n o) -> st = kOk -> dir_usable d).
  { intros op fs h' st n o Hop Es Est. destruct (dir_usable_dec d) as [Hu|Hu]; [exact Hu|].
    rewrite (refused P lib h d op fs R Hu Hop) in Es. inversion Es; subst; discriminate. }
  split; [|split].
  - intros aad pt out fs h' n out' Hop Es.
    assert (Hu : dir_usable d) by (eapply Hus; eauto; discriminate).
    destruct Hop as (H1 & H2 & H3). cbn [hstep] in Es.
    destruct (half_encrypt_spec P h d aad pt out fs HP R H1 H2 H3)
      as (h3 & st & n3 & buf' & fs3 & E3 & _ & _ & _ & _ & _ & Hus3).
    rewrite E3 in Es. cbn in Es. inversion Es; subst.
    destruct (Hus3 Hu) as (_ & _ & K & _). destruct (K eq_refl) as (_ & _ & Kn & _ & Kb).
    split; [exact Kn|]. rewrite Kb, Hseal. reflexivity.
  - intros aad ct out fs h' n out' Hop Es.
    assert (Hu : dir_usable d) by (eapply Hus; eauto; discriminate).
    destruct Hop as (H1 & H2 & H3 & H4). cbn [hstep] in Es.
    destruct (half_decrypt_spec P h d aad ct out fs HP R H1 H2 H3 H4)
      as (h3 & st & n3 & buf' & fs3 & E3 & _ & _ & _ & _ & _ & Hus3).
    rewrite E3 in Es. cbn in Es. inversion Es; subst.
    destruct (Hus3 Hu) as (_ & _ & K & _). destruct (K eq_refl) as (_ & msg & Km & Kn & Kl & Kb).
    exists msg. split; [symmetry; exact Kn|]. rewrite Kb. split; [reflexivity|].
    rewrite Km. apply Hseal.
  - intros fs h' Es. cbn [hstep] in Es.
    destruct (half_update_spec P lib h d fs HP R) as (h3 & st & fs3 & E3 & Eus & Ho & _ & _).
    rewrite E3 in Es. cbn in Es. inversion Es; subst.
    destruct (Ho eq_refl) as [_ Ee']. split; [rewrite Ee', Eep; reflexivity|].
    unfold nonces. rewrite Eus.
    destruct U as (_ & _ & cnt & N1 & _ & _ & N4 & _).
    assert (Hnn : nonces h (k + 1) = []).
    { rewrite N1, N4 by lia. reflexivity. }
    exact Hnn.
Qed.

Lemma C08_lemma : forall P lib s q S ops rs h st op fs,
  prims_ok P -> q < two64 -> hops_ok ops -> hreach P lib s q S ops rs h ->
  In (HUpdated st) rs -> st <> kOk -> is_record_op op ->
  hstep P lib h op fs = Done (h, HCrypt kInternal 0 (IoBuf (op_out op))).
Proof.
  intros P lib s q S ops rs h st op fs HP Hq Hok Hr Hin Hst Hop.
  destruct (hreach_inv _ _ _ _ _ _ _ _ HP Hq Hok Hr) as (R & _ & _).
  destruct Hr as (h0 & fs0 & fs' & Ec & Er). apply hrun_shaped in Er as Sh.
  eapply refused; eauto. intros [Hb _].
  rewrite (spec_run_failed P ops rs _ st Sh Hin Hst) in Hb. discriminate.
Qed.
