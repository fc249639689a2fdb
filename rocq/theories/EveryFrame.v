(* Deviations of the frame protector that occur on every frame protector,
   whatever the primitives, keys and history. *)
From Coq Require Import List NArith ZArith Bool Lia Permutation ZifyBool ZifyNat ZifyN.
From Verif Require Import Base BaseProofs Aead Hkdf HalfConn SpecAead AeadProofs AeadRun AeadRunProofs AeadTotalProofs SpecTls HkdfProofs HalfProofs HalfRun HalfRunProofs Options HsHandler
  Crypter SpecHs HsProofs SpecRecord SpecRx CrypterProofs CrypterRun CrypterRunProofs SpecRxProofs CrypterLemmas CrypterLemmas2
  CrypterLemmas3 HsRun HsRunProofs CrypterChannel CrypterFinal FrameProt SpecFrame FrameRun FrameProofs FrameRx FrameSim FrameFinal
  FrameRef FrameRefProofs.
Import ListNotations.
Local Open Scope N_scope.

Lemma ref_known : forall P lib al a ops rs f s, protector P lib al a ops rs f ->
  no_failures ops ->
  ref_run P (ref_start a) ops (map answer_of rs) s -> r_bad (f_rx s) = false ->
  rx_rel P (fp_crypt f) (f_tx s) (f_rx s).
Proof.
  intros P lib al a ops rs f s Hp Hn R Hb. destruct (protector_ref _ _ _ _ _ _ _ Hp) as (s' & R' & K).
  destruct (ref_run_fun P _ _ _ _ (proj1 Hp) Hn R _ _ R') as (<- & _). auto.
Qed.

Lemma answers : forall P lib al a ops rs f s, protector P lib al a ops rs f ->
  no_failures ops ->
  ref_run P (ref_start a) ops (map answer_of rs) s -> r_bad (f_rx s) = false ->
  forall op ans s1, fop_ok op -> ref_step P ([] <> @nil bool) s op ans s1 -> r_bad (f_rx s1) = false ->
  ~ ref_undef P ([] <> @nil bool) s op ->
  exists f' r, fstep P lib al f op [] = Done (f', r) /\ answer_of r = ans.
Proof.
  intros P lib al a ops rs f s Hp Hn R Hb op ans s1 Hop Hs Hb1 Hu.
  pose proof (ref_known _ _ _ _ _ _ _ _ Hp Hn R Hb) as Rel. pose proof Hp as (HP & HA & _).
  destruct (protector_winv _ _ _ _ _ _ _ Hp) as (d & din & W & _).
  pose proof (fstep_ref P lib al (c_args a) f s op [] d HP HA W Rel Hop) as Q.
  destruct (fstep P lib al f op []) as [[f' r]|u|]; [|contradiction|contradiction].
  exists f', r. split; [reflexivity|]. destruct Q as (s' & Q & _).
  destruct (ref_step_fun P ([] <> @nil bool) _ _ _ _ _ _ HP (fun K => K eq_refl) Hs Q) as (<- & K). symmetry. apply K. exact Hb1.
Qed.

Lemma fatal_inv : forall P F r w, fatal_data P F r w -> forall p rest, lenN p < 65536 -> w = framed p ++ rest ->
  (exists c pad, p = dir_seal P (r_dir r) (tls_header (lenN p)) (inner ty_handshake c pad)) \/
  (exists buf n out r1, lenN buf = lenN p /\ recv P F r (tls_header (lenN p)) p buf S_OK n out r1 /\ (r_bad r1 = true \/ fatal_data P F r1 rest)).
Proof.
  intros P F r w H p rest Hp E. destruct H as [r p' rest' c pad Hs Hcl K _|r p' rest' buf n out r1 Hs Hl K Q];
    apply framed_inj in E; auto; destruct E as [-> ->]; [left; eauto|right; eauto 8].
Qed.

Lemma unprotect_res : forall P lib al f input fs f' r, fstep P lib al f (FUnprotect input) fs = Done (f', r) ->
  exists st bs, r = FUnprotected st bs.
Proof.
  intros P lib al f input fs f' r E. cbn [fstep] in E.
  destruct (fp_unprotect P lib al f input fs) as [[[[? ?] ?] ?]| |]; cbn [obind] in E; try discriminate. injection E as <- <-. eauto.
Qed.

Lemma into_res : forall P lib al f input buf fs f' r, fstep P lib al f (FUnprotectInto input buf) fs = Done (f', r) ->
  exists st out len, r = FUnprotectedInto st out len.
Proof.
  intros P lib al f input buf fs f' r E. cbn [fstep] in E.
  destruct (fp_unprotect_into P lib f input (IoBuf buf) fs) as [[[[[? ?] ?] ?] ?]| |]; cbn [obind] in E; try discriminate. injection E as <- <-. eauto.
Qed.

(* The next record of the peer: application data [c]. *)
Section Next.
Variable P : prims.
Hypothesis HP : prims_ok P.
Variable r : rx.
Hypothesis Hopen : open_rx r.
Hypothesis Hwait : r_wait r = false.
Hypothesis Hgood : r_bad r = false.
Variable c : bytes.
Hypothesis Hc : lenN c <= 16384.
Let F := [] <> @nil bool.
Let rec := tls_record P (r_dir r) ty_application_data c 0.
Let msg := inner ty_application_data c 0.
Let p := dir_seal P (r_dir r) (tls_header (lenN msg + 16)) msg.
Let r1 := rx_data (rx_dir r (dir_next (r_dir r))).

Lemma lm : lenN msg = lenN c + 1. Proof. unfold msg. rewrite lenN_inner. lia. Qed.
Lemma lp : lenN p = lenN c + 17. Proof. unfold p. rewrite lenN_dir_seal by exact HP. rewrite lm. lia. Qed.
Lemma rec_framed : rec = framed p.
Proof. unfold framed. rewrite lp. unfold rec, tls_record, tls_ciphertext. fold msg. rewrite lm. replace (lenN c + 1 + 16) with (lenN c + 17) by lia.
  unfold p. rewrite lm. replace (lenN c + 1 + 16) with (lenN c + 17) by lia. reflexivity. Qed.
Lemma p_small : lenN p < 65536. Proof. rewrite lp. lia. Qed.

Lemma next_recv : forall buf, lenN c + 1 <= lenN buf ->
  recv P F r (tls_header (lenN p)) p buf S_OK (lenN c) (msg ++ dropN (lenN msg) buf) r1.
Proof.
  intros buf Hb. destruct Hopen as [H1 H2].
  refine (RvRecord P _ r _ p _ msg S_OK (lenN c) _ _ H1 _ H2 _ _ _).
  - rewrite lp. split; [reflexivity|lia].
  - unfold p at 1. rewrite lp, lm. replace (lenN c + 1 + 16) with (lenN c + 17) by lia. reflexivity.
  - rewrite lm. exact Hb.
  - refine (AcData P _ _ _ _ c 0 eq_refl _). exact Hwait.
Qed.

Lemma next_bad : r_bad r1 = false. Proof. exact Hgood. Qed.

Lemma take_c : forall t, takeN (lenN c) (msg ++ t) = c.
Proof. intros t. unfold msg, inner. rewrite <- !app_assoc. apply takeN_app_exact. Qed.

Lemma next_all : forall rest st cs r', recv_all P F r1 rest st cs r' ->
  recv_all P F r (rec ++ rest) st (match st with kOk => c :: cs | _ => [] end) r'.
Proof.
  intros rest st cs r' H. rewrite rec_framed.
  rewrite <- (take_c (dropN (lenN msg) (zeros (lenN p)))).
  refine (RaNext P _ r p rest (zeros (lenN p)) (lenN c) _ r1 st cs _ p_small _ (lenN_zeros _) (next_recv _ _) next_bad H).
  - unfold framed. rewrite !lenN_app, lenN_tls_header, lp. lia.
  - rewrite lenN_zeros, lp. lia.
Qed.

Lemma not_hs : forall c' pad, p = dir_seal P (r_dir r) (tls_header (lenN p)) (inner ty_handshake c' pad) -> False.
Proof.
  intros c' pad E.
  assert (E2 : inner ty_application_data c 0 = inner ty_handshake c' pad).
  { refine (dir_seal_inj P (r_dir r) (tls_header (lenN p)) _ _ HP _). rewrite <- E. unfold p. fold msg.
    rewrite lenN_dir_seal by exact HP. reflexivity. }
  apply inner_inj in E2; [|discriminate..]. destruct E2 as (E2 & _). discriminate.
Qed.

Lemma next_fatal : forall rest, ~ fatal_data P F r1 rest -> ~ fatal_data P F r (rec ++ rest).
Proof.
  intros rest Hn H. rewrite rec_framed in H. destruct (fatal_inv _ _ _ _ H p rest p_small eq_refl) as [(c' & pad & E)|(buf & n & out & r2 & Hl & E & K)].
  - exact (not_hs _ _ E).
  - destruct (recv_fun P F r _ p buf buf _ _ _ _ _ _ _ _ HP (fun K => K eq_refl) eq_refl E (next_recv buf ltac:(rewrite Hl, lp; lia))) as (_ & _ & -> & _).
    destruct K as [K|K]; [rewrite next_bad in K; discriminate|contradiction].
Qed.
End Next.

Lemma fatal_long : forall P F r w, prims_ok P -> fatal_data P F r w -> starts_with_record w /\ 22 <= lenN w.
Proof.
  intros P F r w HP H. destruct H as [r p rest c pad Hs Hcl E _|r p rest buf n out r1 Hs Hl E _].
  - split; [apply framed_starts; exact Hs|]. unfold framed. rewrite !lenN_app, lenN_tls_header.
    rewrite E, lenN_dir_seal, lenN_inner by exact HP. lia.
  - split; [apply framed_starts; exact Hs|]. unfold framed. rewrite !lenN_app, lenN_tls_header.
    inversion E; subst; try (match goal with A : (if ?b then _ else _) = S_OK |- _ => destruct b; discriminate end).
    match goal with A : accept _ _ _ ?m _ _ _ _ _ |- _ => assert (m <> []) by (intros ->; inversion A; subst;
      try (match goal with B : [] = inner _ _ _ |- _ => unfold inner in B; destruct c; discriminate end)) end.
    match goal with A : ?m <> [] |- _ => destruct m; [congruence|] end.
    match goal with A : _ = dir_seal _ _ _ _ |- _ => rewrite A end. rewrite lenN_dir_seal, lenN_cons by exact HP. lia.
Qed.

Section Every.
Variables (P : prims) (lib : ssl_lib) (al : allocator) (a : fp_args) (ops : list (fop * faults)) (rs : list fres) (f : fprot) (s : ref).
Hypothesis Hp : protector P lib al a ops rs f.
Hypothesis Hn : no_failures ops.
Hypothesis HR : ref_run P (ref_start a) ops (map answer_of rs) s.
Hypothesis Hb : r_bad (f_rx s) = false.
Hypothesis Ho : open_rx (f_rx s).
Hypothesis Hw : r_wait (f_rx s) = false.
Variables (c : bytes) (input : list iovec).
Hypothesis Hc : lenN c <= 16384.
Hypothesis Hne : Forall nonempty_iov input.
Let rec := tls_record P (r_dir (f_rx s)) ty_application_data c 0.

Lemma rec_long : forall rest, 22 <= lenN (rec ++ rest).
Proof. intros rest. unfold rec. rewrite (rec_framed P (proj1 Hp)), lenN_app. unfold framed. rewrite lenN_app, lenN_tls_header, (lp P (proj1 Hp)) by exact Hc. lia. exact Hc. Qed.

Lemma UF25 : forall tail, lenN tail < 22 -> fop_ok (FUnprotect input) -> iov_concat input = rec ++ tail ->
  exists f' bs, fstep P lib al f (FUnprotect input) [] = Done (f', FUnprotected kOk bs) /\ map fb_bytes bs = [c].
Proof.
  intros tail Ht Hop Hi.
  destruct (answers P lib al a ops rs f s Hp Hn HR Hb (FUnprotect input) (ABuffers kOk [c])
    {| f_tx := f_tx s; f_rx := rx_data (rx_dir (f_rx s) (dir_next (r_dir (f_rx s)))) |} Hop) as (f' & r & E & A).
  - apply RsUnprotect; rewrite Hi; [apply rec_long|].
    exact (next_all P (proj1 Hp) _ Ho Hw Hb c Hc tail kOk [] _ (RaEnd P _ _ _ Ht)).
  - exact Hb.
  - intros U. inversion U; subst; [contradiction|]. rewrite Hi in *.
    refine (next_fatal P (proj1 Hp) _ Ho Hw Hb c Hc tail _ ltac:(eassumption)).
    intros K. apply fatal_long in K; [|exact (proj1 Hp)]. destruct K. lia.
  - exists f'. destruct (unprotect_res _ _ _ _ _ _ _ _ E) as (st & bs & ->). cbn in A. injection A as -> A. eauto.
Qed.

(* The crypter on that record: it is accepted. *)
Lemma next_cstep : forall hdr ps rest rest2 buf fs x' st n out, is_record hdr (iov_concat ps) -> lenN buf = lenN (iov_concat ps) ->
  hdr ++ iov_concat ps ++ rest = rec ++ rest2 -> cop_ok (CUnprotect hdr ps buf) -> fs = [] ->
  cstep P lib (fp_crypt f) (CUnprotect hdr ps buf) fs = Done (x', CUnprotected st n out) -> rest = rest2 /\ st = S_OK.
Proof.
  intros hdr ps rest rest2 buf fs x' st n out (Eh & Hs) Hl Ed (B1 & B2 & B3 & B4) -> E.
  pose proof (ref_known _ _ _ _ _ _ _ _ Hp Hn HR Hb) as Rel.
  unfold rec in Ed. rewrite (rec_framed P (proj1 Hp)) in Ed by exact Hc.
  assert (Ef : framed (iov_concat ps) ++ rest = framed (dir_seal P (r_dir (f_rx s)) (tls_header (lenN (inner ty_application_data c 0) + 16)) (inner ty_application_data c 0)) ++ rest2).
  { unfold framed at 1. rewrite <- app_assoc, <- Eh. exact Ed. }
  apply framed_inj in Ef; [|exact Hs|apply (p_small P (proj1 Hp)); exact Hc]. destruct Ef as [Ep ->]. split; [reflexivity|].
  pose proof (recv_ok P lib (fp_crypt f) (f_tx s) (f_rx s) hdr ps buf [] (proj1 Hp) Rel B1 B2 B3 B4) as K.
  cbn [cstep] in E. destruct (crypt_unprotect P lib (fp_crypt f) (IoBuf hdr) ps (IoBuf buf) []) as [[[[x1 [s1 n1]] out1] fs1]|u|]; try discriminate.
  cbn [obind] in E. injection E as -> -> -> ->. destruct K as (r' & K & _). rewrite Eh, Ep in K.
  refine (proj1 (recv_fun P _ _ _ _ buf buf _ _ _ _ _ _ _ _ (proj1 Hp) (fun K => K eq_refl) eq_refl K (next_recv P (proj1 Hp) _ Ho Hw c Hc buf _))).
  rewrite Hl, Ep, (lp P (proj1 Hp)) by exact Hc. lia.
Qed.

Lemma UF24 : forall junk, 22 <= lenN junk -> ~ starts_with_record junk -> fop_ok (FUnprotect input) -> iov_concat input = rec ++ junk ->
  exists f' id es, fstep P lib al f (FUnprotect input) [] = Done (f', FUnprotected kFailedPrecondition []) /\
    fp_events f' = fp_events f ++ es /\ allocs es = [id] /\ destroys es = [].
Proof.
  intros junk Hj Hs Hop Hi.
  destruct (answers P lib al a ops rs f s Hp Hn HR Hb (FUnprotect input) (ABuffers kFailedPrecondition [])
    {| f_tx := f_tx s; f_rx := rx_data (rx_dir (f_rx s) (dir_next (r_dir (f_rx s)))) |} Hop) as (f' & r & E & A).
  - apply RsUnprotect; rewrite Hi; [apply rec_long|].
    exact (next_all P (proj1 Hp) _ Ho Hw Hb c Hc junk kFailedPrecondition [] _ (RaNone P _ _ _ Hj Hs)).
  - exact Hb.
  - intros U. inversion U; subst; [contradiction|]. rewrite Hi in *.
    refine (next_fatal P (proj1 Hp) _ Ho Hw Hb c Hc junk _ ltac:(eassumption)).
    intros K. apply fatal_long in K; [|exact (proj1 Hp)]. destruct K. contradiction.
  - destruct (unprotect_res _ _ _ _ _ _ _ _ E) as (st & bs & ->). cbn in A. injection A as -> A.
    apply map_eq_nil in A. subst bs. exists f'.
    destruct (protector_winv _ _ _ _ _ _ _ Hp) as (d & din & W & _). pose proof Hp as (HP & HA & _).
    pose proof (unprotect_spec P lib al (c_args a) f input d [] HP HA W Hop) as K. pose proof E as E0. cbn [fstep] in E.
    destruct (fp_unprotect P lib al f input []) as [[[[f1 st1] bufs1] fs']|u|]; cbn [obind] in E; try discriminate.
    injection E as -> -> ->. destruct K as [(K & _)|(_ & cops & crs & opened & e & R & Ok & Nf & L)].
    { exfalso. rewrite (sum_lens_concat input (proj1 Hop)), Hi in K. pose proof (rec_long junk). lia. }
    destruct (Nf eq_refl) as (Nf' & _). destruct L as (_ & _ & L).
    remember (iov_concat input) as w eqn:Ew. remember (fp_crypt f) as x0 eqn:Ex0. destruct R; subst x.
    + exfalso. subst data. pose proof (rec_long junk). rewrite Hi in *. lia.
    + exfalso. match goal with Q : ~ starts_with_record data |- _ => apply Q end. rewrite Hi. unfold rec.
      rewrite (rec_framed P HP) by exact Hc. apply framed_starts. apply (p_small P HP). exact Hc.
    + exfalso. destruct (HA id (lenN (iov_concat ps))) as (b & Hb1 & Hb2).
      match goal with Q : al _ _ = IoBuf buf |- _ => rewrite Q in Hb1; injection Hb1 as <- end.
      match goal with Q : st <> S_OK |- _ => apply Q end.
      refine (proj2 (next_cstep hdr ps data junk buf fs _ st n out ltac:(assumption) Hb2 Hi (Forall_inv Ok) (Forall_inv Nf') ltac:(eassumption))).
    + contradiction.
    + destruct (HA id (lenN (iov_concat ps))) as (b & Hb1 & Hb2).
      match goal with Q : al _ _ = IoBuf buf |- _ => rewrite Q in Hb1; injection Hb1 as <- end.
      destruct (next_cstep hdr ps data junk buf fs _ S_OK n out ltac:(assumption) Hb2 Hi (Forall_inv Ok) (Forall_inv Nf') ltac:(eassumption)) as (-> & _).
      assert (Q : ops0 = [] /\ e = EndNoRecord junk).
      { match goal with R : rec_run _ _ _ _ _ junk _ _ _ _ _ |- _ => remember junk as w2 eqn:Ew2; destruct R; auto; exfalso end.
        - subst data. lia.
        - apply Hs. subst junk. eexists _, _, _. split; [reflexivity|assumption].
        - apply Hs. subst junk. eexists _, _, _. split; [reflexivity|assumption].
        - apply Hs. subst junk. eexists _, _, _. split; [reflexivity|assumption]. }
      destruct Q as [-> ->]. destruct L as (_ & _ & L). eexists _, _. split; [exact E0|]. split; [exact L|]. split; reflexivity.
Qed.

Lemma UF26 : forall rest buf, lenN c + 1 <= lenN buf -> fop_ok (FUnprotectInto input buf) -> iov_concat input = rec ++ rest ->
  exists f' out, fstep P lib al f (FUnprotectInto input buf) [] = Done (f', FUnprotectedInto kOk out (lenN c)) /\ takeN (lenN c) (iov_data out) = c.
Proof.
  intros rest buf Hl Hop Hi. pose proof (proj1 Hp) as HP.
  set (p := dir_seal P (r_dir (f_rx s)) (tls_header (lenN (inner ty_application_data c 0) + 16)) (inner ty_application_data c 0)).
  assert (Hi' : iov_concat input = framed p ++ rest) by (rewrite Hi; unfold rec; rewrite (rec_framed P HP) by exact Hc; reflexivity).
  destruct (answers P lib al a ops rs f s Hp Hn HR Hb (FUnprotectInto input buf)
    (ARead (public_code S_OK) (inner ty_application_data c 0 ++ dropN (lenN (inner ty_application_data c 0)) buf) (match S_OK with S_OK => lenN c | _ => 0 end))
    {| f_tx := f_tx s; f_rx := rx_data (rx_dir (f_rx s) (dir_next (r_dir (f_rx s)))) |} Hop) as (f' & r & E & A).
  - refine (RsInto P _ s input buf p rest S_OK (lenN c) _ _ Hi' _ _ _).
    + apply (p_small P HP). exact Hc.
    + rewrite Hi. apply rec_long.
    + exact (next_recv P HP _ Ho Hw c Hc buf Hl).
  - exact Hb.
  - intros U. inversion U; subst; [contradiction|].
    match goal with Q : iov_concat input = framed ?q ++ _ |- _ => rewrite Hi' in Q; apply framed_inj in Q; [|apply (p_small P HP); exact Hc|assumption];
      destruct Q as [Q _]; rewrite <- Q in * end.
    match goal with Q : _ = dir_seal _ _ _ (inner ty_handshake _ _) |- _ => exact (not_hs P HP _ _ _ _ Q) end.
  - destruct (into_res _ _ _ _ _ _ _ _ _ E) as (st & out & len & ->). cbn in A. injection A as -> A ->.
    exists f', out. split; [exact E|]. rewrite A. unfold inner. rewrite <- !app_assoc. apply takeN_app_exact.
Qed.
End Every.

Lemma UF31 : forall P lib al a ops rs f, protector P lib al a ops rs f -> forall input buf fs, fop_ok (FUnprotectInto input buf) ->
  lenN (iov_concat input) < 22 ->
  fstep P lib al f (FUnprotectInto input buf) fs = Done (f, FUnprotectedInto kFailedPrecondition (IoBuf buf) (lenN buf)).
Proof.
  intros P lib al a ops rs f Hp input buf fs Hop Hl. cbn [fstep].
  destruct (protector_winv _ _ _ _ _ _ _ Hp) as (d & din & W & _ & Ri). destruct Hop as (Hv & Hb & Hs).
  rewrite <- (sum_lens_concat input Hv) in Hl.
  unfold fp_unprotect_into. rewrite total_len_sum by lia. unfold bind at 1, lift at 1, number_bytes_to_unprotect.
  rewrite (record_overhead_spec _ _ _ Ri). cbn [obind].
  destruct (N.ltb_spec (sum_lens input) 22) as [H|H]; [|lia]. reflexivity.
Qed.

Lemma UF23 : forall P lib al a ops rs f, protector P lib al a ops rs f -> forall input fs, ~ Forall iov_valid input ->
  protected_size (sum_lens input) < two64 ->
  (exists f' st es, fstep P lib al f (FProtect input) fs = Done (f', FProtected st []) /\ st <> kOk /\
     fp_events f' = fp_events f ++ es /\ ~ NoDup (destroys es)) /\
  (forall id buf, exists f' st out es, fstep P lib al f (FProtectInto input id buf) fs = Done (f', FProtectedInto st out) /\ st <> kOk /\
     fp_events f' = fp_events f ++ es /\ In id (destroys es) /\ allocs es = []).
Proof.
  intros P lib al a ops rs f Hp input fs Hi Hs. pose proof Hp as (HP & HA & _).
  destruct (protector_winv _ _ _ _ _ _ _ Hp) as (d & din & W & Ro & Ri).
  destruct (F23 P lib al a ops rs f Hp input fs Hs) as [F1 F2]. split.
  - destruct F1 as (f' & st & bs & size & es & E & Ev & A & _ & K).
    assert (Hst : st <> kOk).
    { destruct (protect_spec P lib al f input fs din d HP HA Ri Ro Hs)
        as (h' & st' & bufs & fs' & cops & crs & k & A' & B1 & B2 & B3 & B4 & B5 & B6 & B7 & B8 & B9). cbn zeta in A'.
      cbn [fstep] in E. rewrite A' in E. cbn [obind] in E. injection E as _ <- _. intros ->.
      destruct (B7 eq_refl) as (_ & blocks & K1 & K2 & _). apply Hi. apply valid_lens. congruence. }
    destruct (K Hst) as (-> & K2). exists f', st, (EvAlloc (fp_next f) size :: es). split; [exact E|]. split; [exact Hst|]. split; [exact Ev|].
    cbn [destroys flat_map app]. fold (destroys es). rewrite K2. intros N0. inversion N0 as [|? ? N1 _]. apply N1. left. reflexivity.
  - intros id buf. destruct (F2 id buf) as (f' & st & out & es & E & Ev & A & _ & K).
    assert (Hst : st <> kOk).
    { destruct (protect_into_spec P lib f input id buf fs din d HP Ri Ro) as
        (h' & st' & out' & fs' & cops & crs & k & A' & B1 & B2 & B3 & B4 & B5 & B6 & B7 & B8 & B9 & B10);
        [unfold protected_size in Hs; lia|]. cbn zeta in A'.
      cbn [fstep] in E. rewrite A' in E. cbn [obind] in E. injection E as _ <- _. intros ->.
      destruct (B7 eq_refl) as (_ & _ & blocks & K1 & K2 & _). apply Hi. apply valid_lens. congruence. }
    exists f', st, out, es. rewrite (K Hst). split; [exact E|]. split; [exact Hst|]. split; [exact Ev|]. split; [left; reflexivity|exact A].
Qed.
