(* How large the buffer of the single-record Unprotect must be (C83), and what a
   call leaves behind that was refused because of the caller's buffers (C84). *)
From Coq Require Import List NArith ZArith Bool Lia Permutation ZifyBool ZifyNat ZifyN.
From Verif Require Import Base BaseProofs Aead Hkdf HalfConn SpecAead AeadProofs AeadRun AeadRunProofs AeadTotalProofs SpecTls HkdfProofs HalfProofs HalfRun HalfRunProofs Options HsHandler
  Crypter SpecHs HsProofs SpecRecord SpecRx CrypterProofs CrypterRun CrypterRunProofs SpecRxProofs CrypterLemmas CrypterLemmas2
  CrypterLemmas3 HsRun HsRunProofs CrypterChannel CrypterFinal FrameProt SpecFrame FrameRun FrameProofs FrameRx FrameSim FrameFinal
  FrameRef FrameRefProofs EveryFrame SpecBuf.
Import ListNotations.
Local Open Scope N_scope.

Lemma frun_snoc : forall P lib al ops f f1 rs op fs f2 r, frun P lib al f ops = Done (f1, rs) ->
  fstep P lib al f1 op fs = Done (f2, r) -> frun P lib al f (ops ++ [(op, fs)]) = Done (f2, rs ++ [r]).
Proof.
  intros P lib al ops. induction ops as [|[o g] ops IH]; intros f f1 rs op fs f2 r E E2.
  - injection E as <- <-. cbn [frun app]. rewrite E2. reflexivity.
  - cbn [frun app] in *. destruct (fstep P lib al f o g) as [[f3 r3]| |]; cbn [obind] in *; try discriminate.
    destruct (frun P lib al f3 ops) as [[f4 rs4]| |] eqn:E4; cbn [obind] in *; try discriminate. injection E as <- <-.
    rewrite (IH _ _ _ _ _ _ _ E4 E2). reflexivity.
Qed.

Lemma protector_snoc : forall P lib al a ops rs f op fs f' r, protector P lib al a ops rs f -> fop_ok op ->
  fstep P lib al f op fs = Done (f', r) -> protector P lib al a (ops ++ [(op, fs)]) (rs ++ [r]) f'.
Proof.
  intros P lib al a ops rs f op fs f' r (H1 & H2 & H3 & H4 & H5 & f0 & g & g' & C & R) Hop E.
  repeat (split; [assumption|]). split; [apply Forall_app; split; [exact H5|constructor; [exact Hop|constructor]]|].
  exists f0, g, g'. split; [exact C|]. exact (frun_snoc _ _ _ _ _ _ _ _ _ _ _ R E).
Qed.

Lemma ref_run_snoc : forall P s ops rs s1 op fs r s2, ref_run P s ops rs s1 -> r_bad (f_rx s1) = false ->
  ref_step P (fs <> []) s1 op r s2 -> ref_run P s (ops ++ [(op, fs)]) (rs ++ [r]) s2.
Proof.
  intros P s ops rs s1 op fs r s2 R Hb St. induction R; cbn [app].
  - apply (RunStep P s op fs r s2 [] [] s2 Hb St). constructor.
  - econstructor; eauto.
  - congruence.
Qed.

(* One more call: it answers as the reference does. *)
Lemma one_more : forall P lib al a ops rs f s, protector P lib al a ops rs f ->
  no_failures ops ->
  ref_run P (ref_start a) ops (map answer_of rs) s -> r_bad (f_rx s) = false ->
  forall op ans s1, fop_ok op -> ref_step P ([] <> @nil bool) s op ans s1 -> r_bad (f_rx s1) = false ->
  ~ ref_undef P ([] <> @nil bool) s op ->
  exists f' r, fstep P lib al f op [] = Done (f', r) /\ answer_of r = ans /\
    protector P lib al a (ops ++ [(op, [])]) (rs ++ [r]) f' /\
    no_failures (ops ++ [(op, [])]) /\
    ref_run P (ref_start a) (ops ++ [(op, [])]) (map answer_of (rs ++ [r])) s1.
Proof.
  intros P lib al a ops rs f s Hp Hn R Hb op ans s1 Hop Hs Hb1 Hu.
  destruct (answers _ _ _ _ _ _ _ _ Hp Hn R Hb op ans s1 Hop Hs Hb1 Hu) as (f' & r & E & A).
  exists f', r. split; [exact E|]. split; [exact A|]. split; [exact (protector_snoc _ _ _ _ _ _ _ _ _ _ _ Hp Hop E)|].
  split; [apply Forall_app; split; [exact Hn|repeat constructor]|].
  rewrite map_app. cbn [map]. rewrite A. exact (ref_run_snoc _ _ _ _ _ _ [] _ _ R Hb Hs).
Qed.

Section Buffers.
Variables (P : prims) (lib : ssl_lib) (al : allocator) (a : fp_args) (ops : list (fop * faults)) (rs : list fres) (f : fprot) (s : ref).
Hypothesis Hp : protector P lib al a ops rs f.
Hypothesis Hn : no_failures ops.
Hypothesis HR : ref_run P (ref_start a) ops (map answer_of rs) s.
Hypothesis Hb : r_bad (f_rx s) = false.
Let HP : prims_ok P := proj1 Hp.
Let F := [] <> @nil bool.

(* A record that does not fit the buffer, or is not authentic. *)
Lemma refused : open_rx (f_rx s) -> forall p rest input buf, 17 <= lenN p <= 16401 ->
  (forall msg, p = dir_seal P (r_dir (f_rx s)) (tls_header (lenN p)) msg -> lenN buf < lenN msg /\ (forall c pad, msg <> inner ty_handshake c pad)) ->
  fop_ok (FUnprotectInto input buf) -> Forall nonempty_iov input ->
  iov_concat input = framed p ++ rest ->
  exists f' out, fstep P lib al f (FUnprotectInto input buf) [] = Done (f', FUnprotectedInto kInternal out 0) /\
    iov_data out = zeros (lenN buf) /\
    exists ops' rs' s', s' = {| f_tx := f_tx s; f_rx := rx_dir (f_rx s) (dir_next (r_dir (f_rx s))) |} /\
      protector P lib al a ops' rs' f' /\ no_failures ops' /\
      ref_run P (ref_start a) ops' (map answer_of rs') s'.
Proof.
  intros [Ho1 Ho2] p rest input buf Hl Hm Hop Hne Hi.
  destruct (one_more P lib al a ops rs f s Hp Hn HR Hb (FUnprotectInto input buf)
    (ARead (public_code S_INTERNAL_ERROR) (zeros (lenN buf)) (match S_INTERNAL_ERROR with S_OK => 0 | _ => 0 end))
    {| f_tx := f_tx s; f_rx := rx_dir (f_rx s) (dir_next (r_dir (f_rx s))) |} Hop) as (f' & r & E & A & K).
  - refine (RsInto P _ s input buf p rest S_INTERNAL_ERROR 0 _ _ Hi _ _ _).
    + lia.
    + rewrite Hi. unfold framed. rewrite !lenN_app, lenN_tls_header. lia.
    + apply RvReject; auto. split; [reflexivity|lia]. right. intros msg E. apply Hm. exact E.
  - exact Hb.
  - intros U. inversion U; subst; [contradiction|].
    match goal with Q : iov_concat input = framed ?q ++ _ |- _ => rewrite Hi in Q; apply framed_inj in Q; [|lia|assumption];
      destruct Q as [Q _]; rewrite <- Q in * end.
    match goal with Q : p = dir_seal _ _ _ (inner ty_handshake ?c0 ?pad0) |- _ => exact (proj2 (Hm _ Q) c0 pad0 eq_refl) end.
  - destruct (into_res _ _ _ _ _ _ _ _ _ E) as (st & out & len & ->). cbn in A. injection A as -> A ->.
    exists f', out. split; [exact E|]. split; [exact A|]. eauto 10.
Qed.

(* The next record: application data [c] with [pad] bytes of padding. *)
Variables (c : bytes) (pad : N) (input : list iovec) (rest : bytes).
Hypothesis Ho : open_rx (f_rx s).
Hypothesis Hw : r_wait (f_rx s) = false.
Hypothesis Hc : lenN c + pad <= 16384.
Hypothesis Hne : Forall nonempty_iov input.
Let d := r_dir (f_rx s).
Hypothesis Hi : iov_concat input = tls_record P d ty_application_data c pad ++ rest.
Let msg := inner ty_application_data c pad.
Let p := dir_seal P d (tls_header (lenN msg + 16)) msg.

Lemma lmsg : lenN msg = lenN c + 1 + pad. Proof. unfold msg. rewrite lenN_inner. lia. Qed.
Lemma lpay : lenN p = lenN c + pad + 17. Proof. unfold p. rewrite lenN_dir_seal by exact HP. rewrite lmsg. lia. Qed.
Lemma payload_eq : p = dir_seal P d (tls_header (lenN p)) msg.
Proof. unfold p at 1. rewrite lpay, lmsg. replace (lenN c + 1 + pad + 16) with (lenN c + pad + 17) by lia. reflexivity. Qed.
Lemma input_framed : iov_concat input = framed p ++ rest.
Proof.
  rewrite Hi. unfold tls_record, tls_ciphertext, framed. fold msg. rewrite lpay.
  replace (lenN msg + 16) with (lenN c + pad + 17) by (rewrite lmsg; lia). unfold p.
  replace (lenN msg + 16) with (lenN c + pad + 17) by (rewrite lmsg; lia). rewrite <- !app_assoc. reflexivity.
Qed.
Lemma only_msg : forall m, p = dir_seal P d (tls_header (lenN p)) m -> m = msg.
Proof. intros m E. refine (dir_seal_inj P d (tls_header (lenN p)) _ _ HP _). rewrite <- E. exact payload_eq. Qed.
Lemma msg_not_hs : forall c' pad', msg <> inner ty_handshake c' pad'.
Proof. intros c' pad' E. apply inner_inj in E; [|discriminate..]. destruct E as (E & _). discriminate. Qed.

Lemma fits : forall buf, lenN c + pad + 1 <= lenN buf -> fop_ok (FUnprotectInto input buf) ->
  exists f' out, fstep P lib al f (FUnprotectInto input buf) [] = Done (f', FUnprotectedInto kOk out (lenN c)) /\
    takeN (lenN c) (iov_data out) = c.
Proof.
  intros buf Hl Hop. destruct Ho as [Ho1 Ho2].
  destruct (one_more P lib al a ops rs f s Hp Hn HR Hb (FUnprotectInto input buf)
    (ARead (public_code S_OK) (msg ++ dropN (lenN msg) buf) (match S_OK with S_OK => lenN c | _ => 0 end))
    {| f_tx := f_tx s; f_rx := rx_data (rx_dir (f_rx s) (dir_next (r_dir (f_rx s)))) |} Hop) as (f' & r & E & A & K).
  - refine (RsInto P _ s input buf p rest S_OK (lenN c) _ _ input_framed _ _ _).
    + rewrite lpay. lia.
    + rewrite input_framed. unfold framed. rewrite !lenN_app, lenN_tls_header, lpay. lia.
    + refine (RvRecord P _ _ _ p _ msg S_OK (lenN c) _ _ Ho1 _ Ho2 _ _ _).
      * rewrite lpay. split; [reflexivity|lia].
      * exact payload_eq.
      * rewrite lmsg. lia.
      * refine (AcData P _ _ _ _ c pad eq_refl _). exact Hw.
  - exact Hb.
  - intros U. inversion U; subst; [contradiction|].
    match goal with Q : iov_concat input = framed ?q ++ _ |- _ => rewrite input_framed in Q; apply framed_inj in Q; [|rewrite lpay; lia|assumption];
      destruct Q as [Q _]; rewrite <- Q in * end.
    match goal with Q : p = dir_seal _ _ _ (inner ty_handshake ?c0 ?pad0) |- _ => apply only_msg in Q; exact (msg_not_hs c0 pad0 (eq_sym Q)) end.
  - destruct (into_res _ _ _ _ _ _ _ _ _ E) as (st & out & len & ->). cbn in A. injection A as -> A ->.
    exists f', out. split; [exact E|]. rewrite A. unfold msg, inner. rewrite <- !app_assoc. apply takeN_app_exact.
Qed.

Lemma too_small : forall buf, lenN buf < lenN c + pad + 1 -> fop_ok (FUnprotectInto input buf) ->
  exists f' out, fstep P lib al f (FUnprotectInto input buf) [] = Done (f', FUnprotectedInto kInternal out 0) /\
    iov_data out = zeros (lenN buf) /\
    exists ops' rs' s', s' = {| f_tx := f_tx s; f_rx := rx_dir (f_rx s) (dir_next (r_dir (f_rx s))) |} /\
      protector P lib al a ops' rs' f' /\ no_failures ops' /\
      ref_run P (ref_start a) ops' (map answer_of rs') s'.
Proof.
  intros buf Hl Hop. apply (refused Ho p rest input buf); auto.
  - rewrite lpay. lia.
  - intros m E. apply only_msg in E. subst m. split; [rewrite lmsg; lia|exact msg_not_hs].
  - exact input_framed.
Qed.
End Buffers.

(* C83 *)
Lemma B83exact : forall P lib al a ops rs f s, protector P lib al a ops rs f ->
  no_failures ops ->
  ref_run P (ref_start a) ops (map answer_of rs) s -> r_bad (f_rx s) = false ->
  open_rx (f_rx s) -> r_wait (f_rx s) = false ->
  forall c pad input buf, lenN c + pad <= 16384 -> Forall nonempty_iov input ->
  iov_concat input = tls_record P (r_dir (f_rx s)) ty_application_data c pad -> fop_ok (FUnprotectInto input buf) ->
  number_bytes_to_unprotect f (total_len input) = Done (lenN c + pad + 17) /\
  exists f' st out n, fstep P lib al f (FUnprotectInto input buf) [] = Done (f', FUnprotectedInto st out n) /\
    ((lenN c + pad + 1 <= lenN buf /\ st = kOk /\ n = lenN c /\ takeN n (iov_data out) = c) \/
     (lenN buf < lenN c + pad + 1 /\ st = kInternal /\ n = 0 /\ iov_data out = zeros (lenN buf))).
Proof.
  intros P lib al a ops rs f s Hp Hn HR Hb Ho Hw c pad input buf Hc Hne Hi Hop.
  assert (Hi' : iov_concat input = tls_record P (r_dir (f_rx s)) ty_application_data c pad ++ []) by (rewrite app_nil_r; exact Hi).
  split.
  - destruct (protector_winv _ _ _ _ _ _ _ Hp) as (d & din & W & _ & Ri). destruct Hop as (V & B & Z).
    rewrite total_len_sum by lia. unfold number_bytes_to_unprotect. rewrite (record_overhead_spec _ _ _ Ri). cbn [obind].
    rewrite (sum_lens_concat input V), (input_framed P lib al a ops rs f s Hp c pad input [] Hc Hi').
    rewrite app_nil_r. unfold framed. rewrite lenN_app, lenN_tls_header, (lpay P lib al a ops rs f s Hp c pad Hc).
    destruct (N.ltb_spec (5 + (lenN c + pad + 17)) 22); [lia|]. f_equal. unfold kTlsRecordHeaderSize. lia.
  - destruct (N.le_gt_cases (lenN c + pad + 1) (lenN buf)) as [L|L].
    + destruct (fits P lib al a ops rs f s Hp Hn HR Hb c pad input [] Ho Hw Hc Hne Hi' buf L Hop) as (f' & out & E & K).
      exists f', kOk, out, (lenN c). split; [exact E|]. left. auto.
    + destruct (too_small P lib al a ops rs f s Hp Hn HR Hb c pad input [] Ho Hc Hne Hi' buf L Hop) as (f' & out & E & K & _).
      exists f', kInternal, out, 0. split; [exact E|]. right. auto.
Qed.

(* C84: reading into a buffer that is too small. *)
Lemma B84read : forall P lib al a ops rs f s, protector P lib al a ops rs f ->
  no_failures ops ->
  ref_run P (ref_start a) ops (map answer_of rs) s -> r_bad (f_rx s) = false ->
  open_rx (f_rx s) -> r_wait (f_rx s) = false -> dir_usable (dir_next (r_dir (f_rx s))) ->
  forall c pad input buf, lenN c + pad <= 16384 -> Forall nonempty_iov input ->
  iov_concat input = tls_record P (r_dir (f_rx s)) ty_application_data c pad -> fop_ok (FUnprotectInto input buf) ->
  lenN buf <= lenN c + pad ->
  exists f1 out, fstep P lib al f (FUnprotectInto input buf) [] = Done (f1, FUnprotectedInto kInternal out 0) /\
    (* the same record again, now into any buffer *)
    ((forall m, dropN 5 (iov_concat input) <> dir_seal P (dir_next (r_dir (f_rx s))) (takeN 5 (iov_concat input)) m) ->
     forall buf2, exists f2 out2,
       fstep P lib al f1 (FUnprotectInto input buf2) [] = Done (f2, FUnprotectedInto kInternal out2 0)) /\
    (* the record after it *)
    (forall c2 pad2 input2 buf2, lenN c2 + pad2 <= 16384 -> Forall nonempty_iov input2 ->
     iov_concat input2 = tls_record P (dir_next (r_dir (f_rx s))) ty_application_data c2 pad2 ->
     fop_ok (FUnprotectInto input2 buf2) -> lenN c2 + pad2 < lenN buf2 ->
     exists f2 out2, fstep P lib al f1 (FUnprotectInto input2 buf2) [] = Done (f2, FUnprotectedInto kOk out2 (lenN c2)) /\
       takeN (lenN c2) (iov_data out2) = c2).
Proof.
  intros P lib al a ops rs f s Hp Hn HR Hb Ho Hw Hu c pad input buf Hc Hne Hi Hop Hl.
  assert (Hi' : iov_concat input = tls_record P (r_dir (f_rx s)) ty_application_data c pad ++ []) by (rewrite app_nil_r; exact Hi).
  destruct (too_small P lib al a ops rs f s Hp Hn HR Hb c pad input [] Ho Hc Hne Hi' buf ltac:(lia) Hop)
    as (f1 & out & E & _ & ops' & rs' & s' & Es & Hp1 & Hn1 & HR1). exists f1, out. split; [exact E|].
  assert (Ed : r_dir (f_rx s') = dir_next (r_dir (f_rx s))) by (rewrite Es; reflexivity).
  assert (Hb1 : r_bad (f_rx s') = false) by (rewrite Es; exact Hb).
  assert (Hw1 : r_wait (f_rx s') = false) by (rewrite Es; exact Hw).
  assert (Ho1 : open_rx (f_rx s')) by (split; [rewrite Es; exact (proj1 Ho)|rewrite Ed; exact Hu]).
  split.
  - intros Hf buf2. pose proof (input_framed P lib al a ops rs f s Hp c pad input [] Hc Hi') as Fr.
    pose proof (lpay P lib al a ops rs f s Hp c pad Hc) as Lp.
    match type of Fr with _ = framed ?q ++ _ => set (p := q) in * end. rewrite app_nil_r in Fr.
    assert (Ht : takeN 5 (iov_concat input) = tls_header (lenN p)).
    { rewrite Fr. unfold framed. rewrite <- (lenN_tls_header (lenN p)) at 1. apply takeN_app_exact. }
    assert (Hd : dropN 5 (iov_concat input) = p).
    { rewrite Fr. unfold framed. rewrite <- (lenN_tls_header (lenN p)) at 1. apply dropN_app_exact. }
    rewrite Ht, Hd in Hf.
    destruct (refused P lib al a ops' rs' f1 s' Hp1 Hn1 HR1 Hb1 Ho1 p [] input buf2) as (f2 & out2 & E2 & _).
    + rewrite Lp. lia.
    + rewrite Ed. intros m K. exfalso. exact (Hf m K).
    + exact Hop.
    + exact Hne.
    + rewrite app_nil_r. exact Fr.
    + exists f2, out2. exact E2.
  - intros c2 pad2 input2 buf2 Hc2 Hne2 Hi2 Hop2 Hl2.
    apply (fits P lib al a ops' rs' f1 s' Hp1 Hn1 HR1 Hb1 c2 pad2 input2 [] Ho1 Hw1 Hc2 Hne2); [|lia|exact Hop2].
    rewrite Ed, app_nil_r. exact Hi2.
Qed.

(* C84: writing into a buffer that holds some of the records. *)
Lemma send_stops : forall P F init d buf b more, dir_usable (dir_adv d (lenN init)) ->
  lenN (concat init) + 22 * lenN init <= lenN buf -> lenN buf < lenN (concat init) + 22 * lenN init + lenN b + 22 ->
  exists buf', send_all P F d buf (init ++ b :: more) kFailedPrecondition buf' (dir_adv d (lenN init)).
Proof.
  intros P F init. induction init as [|x init IH]; intros d buf b more Hu Hl Hs.
  - cbn [concat app] in *. rewrite !lenN_nil in *. exists buf. replace (dir_adv d 0) with d by (destruct d; unfold dir_adv; cbn; f_equal; lia).
    apply SaSmall. clear -Hs. unfold bytes in *. lia.
  - cbn [concat app] in *. rewrite lenN_app, lenN_cons in *. rewrite <- dir_adv_next in *.
    assert (Ud : dir_usable d) by (destruct Hu as [U1 U2]; split; [exact U1|]; cbn in U2; lia).
    destruct (IH (dir_next d) (dropN (lenN x + 22) buf) b more Hu) as (buf' & K); [rewrite lenN_dropN; lia..|].
    eexists. apply SaNext; [lia|exact Ud|exact K].
Qed.

Lemma B84write : forall P lib al a ops rs f s, protector P lib al a ops rs f ->
  no_failures ops ->
  ref_run P (ref_start a) ops (map answer_of rs) s -> r_bad (f_rx s) = false ->
  forall input id buf init b more, Forall iov_valid input -> fop_ok (FProtectInto input id buf) ->
  blocks_of (iov_concat input) (init ++ b :: more) ->
  lenN (concat init) + 22 * lenN init <= lenN buf -> lenN buf < lenN (concat init) + 22 * lenN init + lenN b + 22 ->
  dir_usable (dir_adv (f_tx s) (lenN init)) ->
  exists f1 out, fstep P lib al f (FProtectInto input id buf) [] = Done (f1, FProtectedInto kFailedPrecondition out) /\
    (* the next record sent *)
    forall c, lenN c <= 16384 -> exists f2 m, fstep P lib al f1 (FProtect [IoBuf c]) [] = Done (f2, FProtected kOk [m]) /\
      fb_bytes m = tls_record P (dir_adv (f_tx s) (lenN init)) ty_application_data c 0.
Proof.
  intros P lib al a ops rs f s Hp Hn HR Hb input id buf init b more Vi Hop Hbl Hl Hs Hu. pose proof (proj1 Hp) as HP.
  destruct (send_stops P ([] <> @nil bool) init (f_tx s) buf b more Hu Hl Hs) as (buf' & Sa).
  destruct (one_more P lib al a ops rs f s Hp Hn HR Hb (FProtectInto input id buf) (AInto kFailedPrecondition buf')
    {| f_tx := dir_adv (f_tx s) (lenN init); f_rx := f_rx s |} Hop) as (f1 & r & E & A & Hp1 & Hn1 & HR1).
  - eapply RsProtectInto; eauto.
  - exact Hb.
  - intros U. inversion U.
  - assert (Er : exists st out, r = FProtectedInto st out).
    { cbn [fstep] in E. destruct (fp_protect_into P f input id (IoBuf buf) []) as [[[[? ?] ?] ?]| |]; cbn [obind] in E; try discriminate.
      injection E as _ <-. eauto. }
    destruct Er as (st & out & ->). cbn in A. injection A as -> A. exists f1, out. split; [exact E|].
    intros c Hc.
    assert (Ps : protected_size (lenN c) = lenN c + 22).
    { unfold protected_size, record_count. destruct (N.eqb_spec (lenN c) 0) as [->|K]; [reflexivity|].
      replace ((lenN c + 16383) / 16384) with 1; [lia|]. apply (N.div_unique _ _ 1 (lenN c - 1)); lia. }
    assert (Ic : iov_concat [IoBuf c] = c) by (cbn; apply app_nil_r).
    assert (Sc : sum_lens [IoBuf c] = lenN c) by (cbn [sum_lens iov_len]; lia).
    destruct (one_more P lib al a _ _ f1 _ Hp1 Hn1 HR1 Hb (FProtect [IoBuf c])
      (ABuffers kOk [tls_record P (dir_adv (f_tx s) (lenN init)) ty_application_data c 0])
      {| f_tx := dir_next (dir_adv (f_tx s) (lenN init)); f_rx := f_rx s |}) as (f2 & r2 & E2 & A2 & _).
    + cbn [fop_ok]. rewrite Sc, Ps. unfold two64. lia.
    + pose proof (RsProtect P ([] <> @nil bool) {| f_tx := dir_adv (f_tx s) (lenN init); f_rx := f_rx s |} [IoBuf c] [c] (zeros (lenN c + 22)) kOk
        (tls_record P (dir_adv (f_tx s) (lenN init)) ty_application_data c 0 ++ dropN (lenN c + 22) (zeros (lenN c + 22)))
        (dir_next (dir_adv (f_tx s) (lenN init)))) as K.
      rewrite Ic in K. cbn [f_tx f_rx] in K.
      rewrite dropN_all in K by (rewrite lenN_zeros; lia). rewrite app_nil_r in K. apply K.
      * repeat constructor.
      * apply blocks_one. exact Hc.
      * rewrite lenN_zeros, Ps. reflexivity.
      * rewrite <- (app_nil_r (tls_record _ _ _ _ _)). apply SaNext; [rewrite lenN_zeros; lia|exact Hu|].
        rewrite dropN_all by (rewrite lenN_zeros; lia). apply SaDone.
    + exact Hb.
    + intros U. inversion U.
    + assert (Er : exists st bs, r2 = FProtected st bs).
      { cbn [fstep] in E2. destruct (fp_protect P al f1 [IoBuf c] []) as [[[[? ?] ?] ?]| |]; cbn [obind] in E2; try discriminate.
        injection E2 as _ <-. eauto. }
      destruct Er as (st & bs & ->). cbn in A2. injection A2 as -> A2.
      destruct bs as [|m [|? ?]]; try discriminate. cbn in A2. injection A2 as A2. exists f2, m. auto.
Qed.

(* C84: nothing that could be a record. *)
Lemma B84none : forall P lib al a ops rs f, protector P lib al a ops rs f -> forall input buf fs,
  fop_ok (FUnprotectInto input buf) -> Forall nonempty_iov input ->
  lenN (iov_concat input) < 22 \/ ~ starts_with_record (iov_concat input) ->
  exists n, fstep P lib al f (FUnprotectInto input buf) fs = Done (f, FUnprotectedInto kFailedPrecondition (IoBuf buf) n).
Proof.
  intros P lib al a ops rs f Hp input buf fs Hop Hne [Hs|Hs].
  { eexists. exact (UF31 P lib al a ops rs f Hp input buf fs Hop Hs). }
  destruct (protector_winv _ _ _ _ _ _ _ Hp) as (d & din & W & _).
  pose proof (unprotect_into_spec P lib (c_args a) f input buf d fs (proj1 Hp) W Hop) as K. cbn [fstep].
  assert (No : forall hdr ps rest, iov_concat input = hdr ++ iov_concat ps ++ rest -> is_record hdr (iov_concat ps) -> False).
  { intros hdr ps rest E R. apply Hs. exists hdr, (iov_concat ps), rest. split; [exact E|exact R]. }
  destruct (fp_unprotect_into P lib f input (IoBuf buf) fs) as [[[[[f' st] out] len] fs']|u|]; cbn [obind].
  - destruct K as [(_ & -> & -> & -> & ->)|[(_ & _ & -> & -> & -> & ->)|(_ & hdr & ps & rest & x' & s & n & E & R & _)]]; [eauto..|].
    exfalso. exact (No _ _ _ E R).
  - exfalso. destruct K as [K|(hdr & ps & rest & E & R & _)]; [contradiction|]. exact (No _ _ _ E R).
  - contradiction.
Qed.
