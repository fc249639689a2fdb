(* The lemmas about the frame protector in the form used by PropFrame.v. *)
From Coq Require Import List NArith ZArith Bool Lia ZifyBool ZifyNat ZifyN Permutation.
From Verif Require Import Base BaseProofs Aead SpecAead AeadProofs Hkdf HalfConn HalfRun
  SpecTls HkdfProofs HalfProofs Options HsHandler SpecHs HsProofs Crypter SpecRecord CrypterProofs
  SpecRx CrypterRun CrypterRunProofs SpecRxProofs CrypterLemmas CrypterLemmas2 CrypterFinal
  FrameProt SpecFrame FrameRun FrameProofs Calm FrameRx FrameSim FrameLink FrameTrip.
Import ListNotations.
Local Open Scope N_scope.
Ltac Zify.zify_post_hook ::= Z.div_mod_to_equations.

(* ---- the crypter's undefined behaviour ---- *)
Lemma W22u : forall P lib a ops rs x, connection P lib a ops rs x ->
  forall op fs, cop_ok op ->
  (exists y, cstep P lib x op fs = Done y) \/ cstep P lib x op fs = Undef UbNegativeShift.
Proof.
  intros P lib a ops rs x (HP & Hi & Ho & Hok & HR) op fs Hop.
  destruct (creach_winv P lib a ops rs x HP Hi Ho Hok HR) as [W _].
  pose proof (cstep_weak P lib a x _ op fs HP W Hop) as K.
  destruct (cstep P lib x op fs) as [y|u|]; cbn [safe] in K; [left; eauto|right; congruence|contradiction].
Qed.

Lemma protector_winv : forall P lib al a ops rs f, protector P lib al a ops rs f ->
  exists d din, cx_winv P (c_args a) (fp_crypt f) d /\ half_rel P (cx_out (fp_crypt f)) d /\ half_rel P (cx_in (fp_crypt f)) din.
Proof.
  intros P lib al a ops rs f H.
  destruct (protector_connection _ _ _ _ _ _ _ H) as (_ & _ & _ & _ & cops & crs & HP & Hi & Ho & Hok & HR).
  destruct (creach_winv P lib (c_args a) cops crs _ HP Hi Ho Hok HR) as [W _].
  pose proof (cw_out _ _ _ _ W) as Ro. destruct (cw_in _ _ _ _ W) as (din & Ri & _). eauto.
Qed.

(* ---- Protect ---- *)
Lemma records_framed : forall P bs d, prims_ok P -> exists ps, records P d bs = concat (map framed ps) /\
  Forall2 (fun b p => lenN p = lenN b + 17) bs ps.
Proof.
  intros P bs. induction bs as [|b bs IH]; intros d HP.
  - exists []. split; [reflexivity|constructor].
  - destruct (IH (dir_next d) HP) as (ps & E & F). cbn [records]. unfold tls_record, tls_ciphertext.
    exists (dir_seal P d (tls_header (lenN (inner ty_application_data b 0) + 16)) (inner ty_application_data b 0) :: ps).
    cbn [map concat]. rewrite E. unfold framed at 2. rewrite lenN_dir_seal by exact HP.
    split; [reflexivity|]. constructor; [|exact F]. rewrite lenN_dir_seal, lenN_inner by exact HP. lia.
Qed.

Lemma F02 : forall P lib al a ops rs f, protector P lib al a ops rs f ->
  forall input fs, protected_size (sum_lens input) < two64 ->
  exists size, number_bytes_to_protect f (sum_lens input) = Done size /\
  (forall id buf, exists f' st out,
     fstep P lib al f (FProtectInto input id buf) fs = Done (f', FProtectedInto st (IoBuf out)) /\
     lenN out = lenN buf /\
     (st = kOk -> exists w, out = w ++ dropN size buf /\ lenN w = size) /\
     (size <= lenN buf -> st <> kFailedPrecondition) /\
     (lenN buf < size -> st <> kOk)) /\
  (exists f' st bs, fstep P lib al f (FProtect input) fs = Done (f', FProtected st bs) /\
     st <> kFailedPrecondition /\
     (st = kOk -> exists b w, bs = [b] /\ fb_len b = size /\ fb_mem b = IoBuf w /\ lenN w = size)).
Proof.
  intros P lib al a ops rs f Hp input fs Hs. pose proof Hp as (HP & HA & _).
  destruct (protector_winv _ _ _ _ _ _ _ Hp) as (d & din & W & Ro & Ri).
  exists (protected_size (sum_lens input)).
  split; [eapply number_bytes_spec; eauto|]. split.
  - intros id buf. destruct (protect_into_spec P lib f input id buf fs din d HP Ri Ro) as
      (h' & st & out' & fs' & cops & crs & k & A & B1 & B2 & B3 & B4 & B5 & B6 & B7 & B8 & B9 & B10);
      [unfold protected_size in Hs; lia|]. cbn zeta in A.
    eexists _, st, out'. cbn [fstep]. rewrite A. cbn [obind]. split; [reflexivity|]. split; [exact B4|].
    split; [|split; [exact B8|]].
    + intros E. destruct (B7 E) as (_ & K1 & bs & K2 & K3 & K4). exists (records P d bs). split; [exact K4|].
      rewrite lenN_records by exact HP. rewrite (blocks_len _ _ K2), K3. destruct K2 as (-> & _). rewrite K3. reflexivity.
    + intros Hlt E. destruct (B7 E) as (_ & K1 & _). lia.
  - destruct (protect_spec P lib al f input fs din d HP HA Ri Ro Hs)
      as (h' & st & bufs & fs' & cops & crs & k & A & B1 & B2 & B3 & B4 & B5 & B6 & B7 & B8 & B9). cbn zeta in A.
    eexists _, st, bufs. cbn [fstep]. rewrite A. cbn [obind]. split; [reflexivity|].
    split; [destruct B9 as [-> | [-> | ->]]; discriminate|].
    intros E. destruct (B7 E) as (_ & bs & K2 & K3 & K4). subst bufs. eexists _, (records P d bs). split; [reflexivity|].
    split; [reflexivity|]. split; [reflexivity|].
    rewrite lenN_records by exact HP. rewrite (blocks_len _ _ K2), K3. destruct K2 as (-> & _). rewrite K3. reflexivity.
Qed.

Definition good_records (f : fprot) (data out : bytes) : Prop :=
  exists bs ps, blocks_of data bs /\ whole_records ps out /\
    Forall2 (fun b p => lenN p = lenN b + 17) bs ps /\
    Forall (fun p => lenN (framed p) <= max_record_size f) ps.

Lemma good_records_intro : forall P d f data bs, prims_ok P -> fp_max f = 16384 + 22 -> blocks_of data bs ->
  exists ps, whole_records ps (records P d bs) /\ Forall2 (fun b p => lenN p = lenN b + 17) bs ps /\
    Forall (fun p => lenN (framed p) <= max_record_size f) ps.
Proof.
  intros P d f data bs HP Hm Hb. destruct (records_framed P bs d HP) as (ps & E & F).
  assert (Hl : Forall (fun b => lenN b <= 16384) bs).
  { destruct Hb as (_ & init & last & -> & H1 & H2 & _). apply Forall_app. split; [|constructor; [exact H2|constructor]].
    eapply Forall_impl; [|exact H1]. intros b Hb; cbv beta in *; lia. }
  assert (Hps : Forall (fun p => lenN p <= 16401) ps).
  { clear -F Hl. induction F; [constructor|]. inversion Hl; subst. constructor; [lia|auto]. }
  exists ps. split; [split; [exact E|]|split; [exact F|]].
  - eapply Forall_impl; [|exact Hps]. intros p Hp; cbv beta in *. lia.
  - eapply Forall_impl; [|exact Hps]. intros p Hp; cbv beta in *. unfold framed, max_record_size.
    rewrite lenN_app, lenN_tls_header, Hm. lia.
Qed.

Lemma F03 : forall P lib al a ops rs f, protector P lib al a ops rs f ->
  forall input fs f' bs, protected_size (sum_lens input) < two64 ->
  fstep P lib al f (FProtect input) fs = Done (f', FProtected kOk bs) ->
  exists blocks ps, blocks_of (iov_concat input) blocks /\ whole_records ps (out_bytes bs) /\
    Forall2 (fun b p => lenN p = lenN b + 17) blocks ps /\
    Forall (fun p => lenN (framed p) <= max_record_size f) ps.
Proof.
  intros P lib al a ops rs f Hp input fs f' bs Hs E. pose proof Hp as (HP & HA & _).
  destruct (protector_winv _ _ _ _ _ _ _ Hp) as (d & din & W & Ro & Ri).
  destruct (protector_connection _ _ _ _ _ _ _ Hp) as (_ & _ & _ & Hm & _).
  destruct (protect_spec P lib al f input fs din d HP HA Ri Ro Hs)
    as (h' & st & bufs & fs' & cops & crs & k & A & B1 & B2 & B3 & B4 & B5 & B6 & B7 & B8 & B9). cbn zeta in A.
  cbn [fstep] in E. rewrite A in E. cbn [obind] in E. inversion E; subst.
  destruct (B7 eq_refl) as (_ & blocks & K1 & K2 & ->).
  destruct (good_records_intro P d f _ _ HP Hm K1) as (ps & Q1 & Q2 & Q3).
  exists blocks, ps. split; [exact K1|]. split; [|auto]. unfold out_bytes. cbn [map List.concat].
  rewrite app_nil_r, fb_bytes_eq. cbn [fb_len fb_mem iov_data].
  rewrite takeN_all; [exact Q1|].
  rewrite lenN_records by exact HP. rewrite (blocks_len _ _ K1), K2. destruct K1 as (-> & _). rewrite K2.
  unfold protected_size. lia.
Qed.

Lemma F03into : forall P lib al a ops rs f, protector P lib al a ops rs f ->
  forall input id buf fs f' out, protected_size (sum_lens input) < two64 ->
  fstep P lib al f (FProtectInto input id buf) fs = Done (f', FProtectedInto kOk out) ->
  exists blocks ps written, blocks_of (iov_concat input) blocks /\ whole_records ps written /\
    out = IoBuf (written ++ dropN (lenN written) buf) /\
    Forall2 (fun b p => lenN p = lenN b + 17) blocks ps /\
    Forall (fun p => lenN (framed p) <= max_record_size f) ps.
Proof.
  intros P lib al a ops rs f Hp input id buf fs f' out Hs E. pose proof Hp as (HP & HA & _).
  destruct (protector_winv _ _ _ _ _ _ _ Hp) as (d & din & W & Ro & Ri).
  destruct (protector_connection _ _ _ _ _ _ _ Hp) as (_ & _ & _ & Hm & _).
  destruct (protect_into_spec P lib f input id buf fs din d HP Ri Ro) as
      (h' & st & out' & fs' & cops & crs & k & A & B1 & B2 & B3 & B4 & B5 & B6 & B7 & B8 & B9 & B10);
      [unfold protected_size in Hs; lia|]. cbn zeta in A.
  cbn [fstep] in E. rewrite A in E. cbn [obind] in E. inversion E; subst.
  destruct (B7 eq_refl) as (_ & _ & blocks & K1 & K2 & ->).
  destruct (good_records_intro P d f _ _ HP Hm K1) as (ps & Q1 & Q2 & Q3).
  exists blocks, ps, (records P d blocks). split; [exact K1|]. split; [exact Q1|]. split; [|auto].
  rewrite lenN_records by exact HP. rewrite (blocks_len _ _ K1), K2. destruct K1 as (-> & _). rewrite K2. reflexivity.
Qed.

Lemma F03count : forall data bs, blocks_of data bs -> lenN bs = record_count (lenN data).
Proof. exact blocks_len. Qed.

Lemma F23 : forall P lib al a ops rs f, protector P lib al a ops rs f ->
  forall input fs, protected_size (sum_lens input) < two64 ->
  (exists f' st bs size es, fstep P lib al f (FProtect input) fs = Done (f', FProtected st bs) /\
     fp_events f' = fp_events f ++ EvAlloc (fp_next f) size :: es /\
     allocs es = [] /\
     (st = kOk -> es = [] /\ exists b, bs = [b] /\ fb_id b = fp_next f) /\
     (st <> kOk -> bs = [] /\ destroys es = [fp_next f; fp_next f])) /\
  (forall id buf, exists f' st out es, fstep P lib al f (FProtectInto input id buf) fs = Done (f', FProtectedInto st out) /\
     fp_events f' = fp_events f ++ es /\ allocs es = [] /\
     (st = kOk -> es = []) /\ (st <> kOk -> destroys es = [id])).
Proof.
  intros P lib al a ops rs f Hp input fs Hs. pose proof Hp as (HP & HA & _).
  destruct (protector_winv _ _ _ _ _ _ _ Hp) as (d & din & W & Ro & Ri). split.
  - destruct (protect_spec P lib al f input fs din d HP HA Ri Ro Hs)
      as (h' & st & bufs & fs' & cops & crs & k & A & B1 & B2 & B3 & B4 & B5 & B6 & B7 & B8 & B9). cbn zeta in A.
    eexists _, st, bufs, _, _. cbn [fstep]. rewrite A. cbn [obind]. split; [reflexivity|]. cbn [fp_events].
    split; [reflexivity|]. split; [destruct (is_ok st); reflexivity|]. split.
    + intros ->. split; [reflexivity|]. destruct (B7 eq_refl) as (_ & bs & _ & _ & ->). eexists. split; reflexivity.
    + intros Hn. split; [auto|]. destruct st; try reflexivity. contradiction.
  - intros id buf. destruct (protect_into_spec P lib f input id buf fs din d HP Ri Ro) as
      (h' & st & out' & fs' & cops & crs & k & A & B1 & B2 & B3 & B4 & B5 & B6 & B7 & B8 & B9 & B10);
      [unfold protected_size in Hs; lia|]. cbn zeta in A.
    eexists _, st, (IoBuf out'), (if is_ok st then [] else [EvDestroy id]). cbn [fstep]. rewrite A. cbn [obind]. split; [reflexivity|].
    split; [destruct (is_ok st); cbn [fp_events with_crypt fp_destroy]; rewrite ?app_nil_r; reflexivity|].
    split; [destruct (is_ok st); reflexivity|]. split; [intros ->; reflexivity|].
    intros Hn. destruct st; try reflexivity. contradiction.
Qed.

(* ---- Unprotect ---- *)
Definition ids (id n : N) : list N := map (fun i => id + N.of_nat i) (seq 0 (N.to_nat n)).
Lemma ids_S : forall id n, ids id (1 + n) = id :: ids (id + 1) n.
Proof.
  intros id n. unfold ids. replace (N.to_nat (1 + n)) with (S (N.to_nat n)) by lia. cbn [seq map]. rewrite N.add_0_r. f_equal.
  rewrite <- seq_shift, map_map. apply map_ext. intros i. lia.
Qed.
Lemma ids_snoc : forall n id, ids id (n + 1) = ids id n ++ [id + n].
Proof.
  intros n id. unfold ids. replace (N.to_nat (n + 1)) with (N.to_nat n + 1)%nat by lia. rewrite seq_app, map_app. cbn [seq map].
  rewrite Nat.add_0_l, N2Nat.id. reflexivity.
Qed.

Lemma ids_nodup : forall id n, NoDup (ids id n).
Proof.
  intros id n. unfold ids. apply FinFun.Injective_map_NoDup; [|apply seq_NoDup]. intros i j H. lia.
Qed.

Lemma is_record_framed : forall hdr p, is_record hdr p -> hdr ++ p = framed p /\ lenN p < 65536.
Proof. intros hdr p (-> & H). split; [reflexivity|exact H]. Qed.

Definition end_rest (e : ending) (rest : bytes) : Prop :=
  match e with EndAll r | EndNoRecord r => rest = r | _ => True end.

Lemma rec_run_shape : forall P lib al x id data ops rs opened e x',
  rec_run P lib al x id data ops rs opened e x' ->
  exists ps rest, data = concat (map framed ps) ++ rest /\ Forall (fun p => lenN p < 65536) ps /\
    length ps = length opened /\ end_rest e rest /\
    map fb_id opened = ids id (lenN opened) /\ allocs (op_allocs id ops) = ids id (lenN ops) /\
    destroys (op_allocs id ops) = [] /\
    lenN ops = lenN opened + (match e with EndFailed _ | EndUndef _ => 1 | _ => 0 end) /\
    (forall r, e = EndAll r -> lenN r < 22) /\ (forall r, e = EndNoRecord r -> 22 <= lenN r /\ ~ starts_with_record r) /\
    (forall s, e = EndFailed s -> s <> S_OK).
Proof.
  intros P lib al x id data ops rs opened e x' H. induction H.
  - exists [], data. repeat split; try discriminate; auto. intros r E. inversion E; subst; assumption.
  - exists [], data. repeat split; try discriminate; auto; intros; match goal with K : EndNoRecord _ = EndNoRecord _ |- _ => inversion K; subst; assumption end.
  - exists [], (hdr ++ iov_concat ps ++ data). repeat split; try discriminate; auto.
    + exact (eq_sym (ids_S id 0)).
    + intros s E. inversion E; subst; assumption.
  - exists [], (hdr ++ iov_concat ps ++ data). repeat split; try discriminate; auto.
    exact (eq_sym (ids_S id 0)).
  - destruct IHrec_run as (qs & rest & K1 & K2 & K3 & K4 & K5 & K6 & K7 & K8 & K9 & K10 & K11).
    destruct (is_record_framed _ _ H) as [Hf Hlt].
    exists (iov_concat ps :: qs), rest. split.
    { cbn [map concat]. rewrite <- Hf, K1, <- !app_assoc. reflexivity. }
    split; [apply Forall_cons; assumption|]. split; [cbn [length]; rewrite K3; reflexivity|]. split; [exact K4|].
    split; [cbn [map fb_id]; rewrite K5, lenN_cons, ids_S; reflexivity|].
    split.
    { cbn [op_allocs allocs flat_map app]. fold (allocs (op_allocs (id + 1) ops)). rewrite K6, lenN_cons, ids_S. reflexivity. }
    split; [cbn [op_allocs destroys flat_map app]; exact K7|]. split; [rewrite !lenN_cons, K8; lia|]. auto.
Qed.

Lemma allocs_app : forall a b, allocs (a ++ b) = allocs a ++ allocs b.
Proof. intros. unfold allocs. apply flat_map_app. Qed.
Lemma destroys_app : forall a b, destroys (a ++ b) = destroys a ++ destroys b.
Proof. intros. unfold destroys. apply flat_map_app. Qed.
Lemma destroys_map : forall l : list fbuf, destroys (map (fun b => EvDestroy (fb_id b)) l) = map fb_id l.
Proof. induction l as [|b l IH]; cbn; [reflexivity|]. unfold destroys in IH. rewrite IH. reflexivity. Qed.
Lemma allocs_map : forall l : list fbuf, allocs (map (fun b => EvDestroy (fb_id b)) l) = [].
Proof. induction l as [|b l IH]; cbn; auto. Qed.

Lemma fp_code_ok : forall s, fp_code s = kOk -> s = S_OK.
Proof. destruct s; cbn; intros; try discriminate; reflexivity. Qed.

Lemma F24 : forall P lib al a ops rs f, protector P lib al a ops rs f ->
  forall input fs f' st bs, fop_ok (FUnprotect input) ->
  fstep P lib al f (FUnprotect input) fs = Done (f', FUnprotected st bs) ->
  exists es, fp_events f' = fp_events f ++ es /\ NoDup (allocs es) /\
    (st = kOk -> map fb_id bs = allocs es /\ destroys es = []) /\
    (st <> kOk -> bs = [] /\
      (Permutation (destroys es) (allocs es) \/
       (st = kFailedPrecondition /\ destroys es = [] /\
        exists ps rest, iov_concat input = concat (map framed ps) ++ rest /\ length ps = length (allocs es) /\
          Forall (fun p => lenN p < 65536) ps /\ 22 <= lenN rest /\ ~ starts_with_record rest))).
Proof.
  intros P lib al a ops rs f Hp input fs f' st bs Hop E. pose proof Hp as (HP & HA & _).
  destruct (protector_winv _ _ _ _ _ _ _ Hp) as (d & din & W & Ro & Ri).
  pose proof (unprotect_spec P lib al (c_args a) f input d fs HP HA W Hop) as K. cbn [fstep] in E.
  destruct (fp_unprotect P lib al f input fs) as [[[[f1 st1] bufs1] fs']|u|]; cbn [obind] in E; try discriminate.
  inversion E; subst. destruct K as [(_ & -> & -> & -> & _)|(_ & cops & crs & opened & e & R & _ & _ & L)].
  { exists []. rewrite app_nil_r. split; [reflexivity|]. split; [constructor|]. split; [discriminate|].
    intros _. split; [reflexivity|]. left. constructor. }
  destruct (rec_run_shape _ _ _ _ _ _ _ _ _ _ _ R) as (ps & rest & K1 & K2 & K3 & K4 & K5 & K6 & K7 & K8 & K9 & K10 & K11).
  destruct L as (_ & _ & L). destruct e as [r|r|s|u].
  - destruct L as (-> & -> & ->). eexists. split; [reflexivity|]. rewrite K6. split; [apply ids_nodup|].
    split; [|intros H; contradiction]. intros _. cbn [app]. rewrite K5, K8, N.add_0_r. split; [reflexivity|exact K7].
  - destruct L as (-> & -> & ->). eexists. split; [reflexivity|]. rewrite K6. split; [apply ids_nodup|]. split; [discriminate|].
    intros _. split; [reflexivity|]. right. split; [reflexivity|]. split; [exact K7|]. destruct (K10 r eq_refl) as [Q1 Q2].
    cbn in K4. subst r. exists ps, rest. split; [exact K1|]. split; [|auto].
    rewrite K3. unfold ids. rewrite map_length, seq_length. rewrite K8, N.add_0_r. unfold lenN. lia.
  - destruct L as (-> & -> & ->). eexists. split; [reflexivity|].
    rewrite allocs_app, destroys_app, K6, K7. cbn [app].
    assert (A0 : forall i l, allocs (EvDestroy i :: map (fun b : fbuf => EvDestroy (fb_id b)) l) = []).
    { intros i l. cbn. apply allocs_map. }
    rewrite A0, app_nil_r. split; [apply ids_nodup|].
    split; [intros K; apply fp_code_ok in K; exfalso; exact (K11 _ eq_refl K)|]. intros _. split; [reflexivity|]. left.
    cbn [destroys flat_map app]. fold (destroys (map (fun b : fbuf => EvDestroy (fb_id b)) opened)).
    rewrite destroys_map, K5, K8, ids_snoc. apply Permutation_cons_append.
  - contradiction.
Qed.

Lemma F25 : forall P lib al a ops rs f, protector P lib al a ops rs f ->
  forall input fs f' bs, fop_ok (FUnprotect input) ->
  fstep P lib al f (FUnprotect input) fs = Done (f', FUnprotected kOk bs) ->
  exists ps rest, iov_concat input = concat (map framed ps) ++ rest /\ Forall (fun p => lenN p < 65536) ps /\
    length ps = length bs /\ ps <> [] /\ lenN rest < 22.
Proof.
  intros P lib al a ops rs f Hp input fs f' bs Hop E. pose proof Hp as (HP & HA & _).
  destruct (protector_winv _ _ _ _ _ _ _ Hp) as (d & din & W & Ro & Ri).
  pose proof (unprotect_spec P lib al (c_args a) f input d fs HP HA W Hop) as K. cbn [fstep] in E.
  destruct (fp_unprotect P lib al f input fs) as [[[[f1 st1] bufs1] fs']|u|]; cbn [obind] in E; try discriminate.
  inversion E; subst. destruct K as [(_ & _ & K & _)|(Hsz & cops & crs & opened & e & R & _ & _ & L)]; [discriminate|].
  destruct (rec_run_shape _ _ _ _ _ _ _ _ _ _ _ R) as (ps & rest & K1 & K2 & K3 & K4 & K5 & K6 & K7 & K8 & K9 & K10 & K11).
  destruct L as (_ & _ & L). destruct e as [r|r|s|u].
  - destruct L as (_ & -> & _). pose proof (K9 r eq_refl) as Hr. cbn in K4. subst r. exists ps, rest.
    split; [exact K1|]. split; [exact K2|]. split; [exact K3|]. split; [|exact Hr].
    destruct Hop as (Hv & _). rewrite (sum_lens_concat _ Hv), K1 in Hsz. intros ->. cbn [map concat app] in Hsz. lia.
  - destruct L as (K & _). discriminate.
  - destruct L as (K & _). symmetry in K. apply fp_code_ok in K. exfalso. exact (K11 _ eq_refl K).
  - contradiction.
Qed.

(* Whole records are never followed by a leak. *)
Lemma framed_inj : forall p q r s, lenN p < 65536 -> lenN q < 65536 -> framed p ++ r = framed q ++ s -> p = q /\ r = s.
Proof.
  intros p q r s Hp Hq E. unfold framed in E. rewrite <- !app_assoc in E.
  apply app_split in E; [|rewrite !lenN_tls_header; reflexivity]. destruct E as [E1 E2].
  apply tls_header_inj in E1; auto. apply app_split in E2; auto.
Qed.

Lemma whole_prefix : forall qs ps rest tail, Forall (fun p => lenN p < 65536) ps -> Forall (fun p => lenN p < 65536) qs ->
  concat (map framed ps) ++ rest = concat (map framed qs) ++ tail -> ~ starts_with_record rest -> lenN tail < 22 -> 22 <= lenN rest -> False.
Proof.
  induction qs as [|q qs IH]; intros ps rest tail Hps Hqs E Hn Ht Hr.
  - cbn [map concat app] in E. assert (lenN rest <= lenN tail) by (rewrite <- E, lenN_app; lia). lia.
  - inversion Hqs; subst. cbn [map concat] in E. rewrite <- app_assoc in E.
    destruct ps as [|p ps].
    + cbn [map concat app] in E. apply Hn. eexists (tls_header (lenN q)), q, _. split; [rewrite E; unfold framed; rewrite <- !app_assoc; reflexivity|].
      split; [reflexivity|assumption].
    + inversion Hps; subst. cbn [map concat] in E. rewrite <- app_assoc in E. apply framed_inj in E; auto.
      destruct E as [_ E]. eapply IH; eauto.
Qed.

Lemma F24whole : forall P lib al a ops rs f, protector P lib al a ops rs f ->
  forall input fs f' st bs ps tail, fop_ok (FUnprotect input) ->
  iov_concat input = concat (map framed ps) ++ tail -> Forall (fun p => lenN p < 65536) ps -> lenN tail < 22 ->
  fstep P lib al f (FUnprotect input) fs = Done (f', FUnprotected st bs) ->
  exists es, fp_events f' = fp_events f ++ es /\ NoDup (allocs es) /\
    (st = kOk -> map fb_id bs = allocs es /\ destroys es = []) /\
    (st <> kOk -> bs = [] /\ Permutation (destroys es) (allocs es)).
Proof.
  intros P lib al a ops rs f Hp input fs f' st bs ps tail Hop Ei Hps Ht E.
  destruct (F24 P lib al a ops rs f Hp input fs f' st bs Hop E) as (es & K1 & K2 & K3 & K4).
  exists es. split; [exact K1|]. split; [exact K2|]. split; [exact K3|]. intros Hn. destruct (K4 Hn) as (Q1 & Q2).
  split; [exact Q1|]. destruct Q2 as [Q2|(_ & _ & qs & rest & G1 & G2 & G3 & G4 & G5)]; [exact Q2|]. exfalso.
  rewrite Ei in G1. symmetry in G1. eapply (whole_prefix ps qs); eauto.
Qed.

(* ---- authenticity ---- *)
Lemma connection_snoc : forall P lib a ops rs x op fs x' r, connection P lib a ops rs x -> cop_ok op ->
  cstep P lib x op fs = Done (x', r) -> connection P lib a (ops ++ [(op, fs)]) (rs ++ [r]) x'.
Proof.
  intros P lib a ops rs x op fs x' r (HP & Hi & Ho & Hok & HR) Hop E.
  split; [exact HP|]. split; [exact Hi|]. split; [exact Ho|].
  split; [apply Forall_app; split; [exact Hok|apply Forall_cons; [exact Hop|apply Forall_nil]]|].
  exact (creach_snoc _ _ _ _ _ _ _ _ _ _ HR E).
Qed.

Lemma step_authentic : forall P lib a cops crs x hdr ps buf fs x' n out,
  connection P lib (c_args a) cops crs x -> cop_ok (CUnprotect hdr ps buf) -> is_record hdr (iov_concat ps) ->
  cstep P lib x (CUnprotect hdr ps buf) fs = Done (x', CUnprotected S_OK n out) ->
  authentic P a (iov_concat ps) (takeN n (iov_data out)).
Proof.
  intros P lib a cops crs x hdr ps buf fs x' n out HC Hop (Eh & _) E.
  destruct (W33 P lib (c_args a) cops crs x HC hdr ps buf fs x' n out Hop E) as (_ & _ & ty & content & pad & Hty & Es & Ha & Hh).
  rewrite Eh in Es. eexists _, _, ty, content, pad. split; [exact Es|]. destruct Hty as [-> | ->].
  - left. split; [reflexivity|]. apply Ha. reflexivity.
  - right. split; [reflexivity|]. rewrite (Hh eq_refl). reflexivity.
Qed.

Lemma rec_run_authentic : forall P lib al a x id data ops rs opened e x',
  rec_run P lib al x id data ops rs opened e x' ->
  forall cops crs, connection P lib (c_args a) cops crs x -> cops_ok ops ->
  exists ps rest, data = concat (map framed ps) ++ rest /\ Forall (fun p => lenN p < 65536) ps /\
    Forall2 (authentic P a) ps (map fb_bytes opened) /\ (forall r, e = EndAll r -> lenN rest < 22).
Proof.
  intros P lib al a x id data ops rs opened e x' H. induction H; intros cops crs HC Hok.
  - exists [], data. split; [reflexivity|]. split; [constructor|]. split; [constructor|]. auto.
  - exists [], data. split; [reflexivity|]. split; [constructor|]. split; [constructor|]. discriminate.
  - exists [], (hdr ++ iov_concat ps ++ data). split; [reflexivity|]. split; [constructor|]. split; [constructor|]. discriminate.
  - exists [], (hdr ++ iov_concat ps ++ data). split; [reflexivity|]. split; [constructor|]. split; [constructor|]. discriminate.
  - pose proof (Forall_inv Hok) as Hop. pose proof (Forall_inv_tail Hok) as Hok'. cbn [fst] in Hop.
    destruct (IHrec_run _ _ (connection_snoc _ _ _ _ _ _ _ _ _ _ HC Hop H1) Hok') as (qs & rest & K1 & K2 & K3 & K4).
    destruct (is_record_framed _ _ H) as [Hf Hlt].
    exists (iov_concat ps :: qs), rest. split; [cbn [map concat]; rewrite <- Hf, K1, <- !app_assoc; reflexivity|].
    split; [apply Forall_cons; assumption|]. split; [|exact K4]. cbn [map]. constructor; [|exact K3].
    rewrite fb_bytes_eq. cbn [fb_len fb_mem]. eapply step_authentic; eauto.
Qed.

Lemma F33 : forall P lib al a ops rs f, protector P lib al a ops rs f ->
  forall input fs f' bs, fop_ok (FUnprotect input) ->
  fstep P lib al f (FUnprotect input) fs = Done (f', FUnprotected kOk bs) ->
  exists ps rest, iov_concat input = concat (map framed ps) ++ rest /\ lenN rest < 22 /\
    Forall (fun p => lenN p < 65536) ps /\ Forall2 (authentic P a) ps (map fb_bytes bs).
Proof.
  intros P lib al a ops rs f Hp input fs f' bs Hop E. pose proof Hp as (HP & HA & _).
  destruct (protector_winv _ _ _ _ _ _ _ Hp) as (d & din & W & Ro & Ri).
  destruct (protector_connection _ _ _ _ _ _ _ Hp) as (_ & _ & _ & _ & cops0 & crs0 & HC).
  pose proof (unprotect_spec P lib al (c_args a) f input d fs HP HA W Hop) as K. cbn [fstep] in E.
  destruct (fp_unprotect P lib al f input fs) as [[[[f1 st1] bufs1] fs']|u|]; cbn [obind] in E; try discriminate.
  inversion E; subst. destruct K as [(_ & _ & K & _)|(Hsz & cops & crs & opened & e & R & Hcok & _ & L)]; [discriminate|].
  destruct (rec_run_authentic P lib al a _ _ _ _ _ _ _ _ R cops0 crs0 HC Hcok) as (ps & rest & K1 & K2 & K3 & K4).
  destruct (rec_run_shape _ _ _ _ _ _ _ _ _ _ _ R) as (_ & _ & _ & _ & _ & _ & _ & _ & _ & _ & _ & _ & K11).
  destruct L as (_ & _ & L). destruct e as [r|r|s|u].
  - destruct L as (_ & -> & _). exists ps, rest. split; [exact K1|]. split; [eapply K4; reflexivity|]. auto.
  - destruct L as (K & _). discriminate.
  - destruct L as (K & _). symmetry in K. apply fp_code_ok in K. exfalso. exact (K11 _ eq_refl K).
  - contradiction.
Qed.

Lemma F26 : forall P lib al a ops rs f, protector P lib al a ops rs f ->
  forall input buf fs f' out len, fop_ok (FUnprotectInto input buf) ->
  fstep P lib al f (FUnprotectInto input buf) fs = Done (f', FUnprotectedInto kOk out len) ->
  exists p rest, iov_concat input = framed p ++ rest /\ lenN p < 65536 /\
    authentic P a p (takeN len (iov_data out)).
Proof.
  intros P lib al a ops rs f Hp input buf fs f' out len Hop E. pose proof Hp as (HP & HA & _).
  destruct (protector_winv _ _ _ _ _ _ _ Hp) as (d & din & W & Ro & Ri).
  destruct (protector_connection _ _ _ _ _ _ _ Hp) as (_ & _ & _ & _ & cops0 & crs0 & HC).
  pose proof (unprotect_into_spec P lib (c_args a) f input buf d fs HP W Hop) as K. cbn [fstep] in E.
  destruct (fp_unprotect_into P lib f input (IoBuf buf) fs) as [[[[[f1 st1] out1] n1] fs']|u|]; cbn [obind] in E; try discriminate.
  inversion E; subst.
  destruct K as [(_ & _ & K & _)|[(_ & _ & _ & K & _)|(_ & hdr & ps & rest & x' & s & n & K1 & K2 & K3 & K4 & _ & K5 & K6)]]; try discriminate.
  symmetry in K5. apply fp_code_ok in K5. subst s. subst len.
  destruct (is_record_framed _ _ K2) as [Hf Hlt]. exists (iov_concat ps), rest.
  split; [rewrite K1, <- Hf, <- app_assoc; reflexivity|]. split; [exact Hlt|]. eapply step_authentic; eauto.
Qed.

(* ---- no bytes with an error ---- *)
Lemma F31 : forall P lib al a ops rs f, protector P lib al a ops rs f ->
  forall op fs f' r, fop_ok op -> fstep P lib al f op fs = Done (f', r) ->
  match r with
  | FProtected st bs | FUnprotected st bs => st <> kOk -> bs = []
  | FProtectedInto st out => True
  | FUnprotectedInto st out len => st <> kOk -> len = 0 \/
      exists input buf, op = FUnprotectInto input buf /\ sum_lens input < 22 /\ out = IoBuf buf /\ len = lenN buf
  end.
Proof.
  intros P lib al a ops rs f Hp op fs f' r Hop E. pose proof Hp as (HP & HA & _).
  destruct (protector_winv _ _ _ _ _ _ _ Hp) as (d & din & W & Ro & Ri).
  destruct op as [input|input id buf|input|input buf].
  - destruct (F23 P lib al a ops rs f Hp input fs Hop) as ((f1 & st & bs & size & es & A & _ & _ & _ & B) & _).
    rewrite A in E. inversion E; subst. intros Hn. apply B. exact Hn.
  - cbn [fstep] in E. destruct (fp_protect_into P f input id (IoBuf buf) fs) as [[[[f1 st1] out1] fs']|u|]; cbn [obind] in E; try discriminate.
    inversion E; subst. exact I.
  - pose proof E as E'. cbn [fstep] in E.
    destruct (fp_unprotect P lib al f input fs) as [[[[f1 st1] bufs1] fs']|u|]; cbn [obind] in E; try discriminate.
    inversion E; subst. destruct (F24 P lib al a ops rs f Hp input fs _ _ _ Hop E') as (es & _ & _ & _ & K).
    intros Hn. apply K. exact Hn.
  - pose proof (unprotect_into_spec P lib (c_args a) f input buf d fs HP W Hop) as K. cbn [fstep] in E.
    destruct (fp_unprotect_into P lib f input (IoBuf buf) fs) as [[[[[f1 st1] out1] n1] fs']|u|]; cbn [obind] in E; try discriminate.
    inversion E; subst. intros Hn.
    destruct K as [(K1 & _ & _ & K2 & K3)|[(_ & _ & _ & K & K1 & K2)|(_ & hdr & ps & rest & x' & s & n & K1 & K2 & K3 & K4 & _ & K5 & K6)]].
    + right. eauto 10.
    + left. exact K2.
    + left. destruct s; first [exact K6 | subst; contradiction].
Qed.

(* The status of the single-record Unprotect is the translation of the
   crypter's status. *)
Lemma F31code : forall P lib al a ops rs f, protector P lib al a ops rs f ->
  forall hdr p rest input buf fs f' st out len, fop_ok (FUnprotectInto input buf) ->
  iov_concat input = hdr ++ p ++ rest -> is_record hdr p -> 22 <= sum_lens input ->
  fstep P lib al f (FUnprotectInto input buf) fs = Done (f', FUnprotectedInto st out len) ->
  exists ps s n, iov_concat ps = p /\ cop_ok (CUnprotect hdr ps buf) /\
    cstep P lib (fp_crypt f) (CUnprotect hdr ps buf) fs = Done (fp_crypt f', CUnprotected s n out) /\ st = public_code s.
Proof.
  intros P lib al a ops rs f Hp hdr p rest input buf fs f' st out len Hop Ei (Eh & Hlt) Hsz E. pose proof Hp as (HP & HA & _).
  destruct (protector_winv _ _ _ _ _ _ _ Hp) as (d & din & W & Ro & Ri).
  pose proof (unprotect_into_spec P lib (c_args a) f input buf d fs HP W Hop) as K. cbn [fstep] in E.
  destruct (fp_unprotect_into P lib f input (IoBuf buf) fs) as [[[[[f1 st1] out1] n1] fs']|u|]; cbn [obind] in E; try discriminate.
  inversion E; subst.
  destruct K as [(K1 & _)|[(_ & K1 & _)|(_ & hdr & ps & rest' & x' & s & n & K1 & (K2 & K2') & K3 & K4 & K4' & K5 & K6)]].
  - lia.
  - exfalso. apply K1. eexists _, _, _. split; [exact Ei|]. split; [reflexivity|exact Hlt].
  - rewrite Ei, K2 in K1. apply app_split in K1; [|rewrite !lenN_tls_header; reflexivity]. destruct K1 as [H1 H2].
    apply tls_header_inj in H1; auto. apply app_split in H2; auto. destruct H2 as [H2 H3]. subst p.
    exists ps, s, n. split; [reflexivity|]. subst f'. rewrite <- K2. split; [assumption|]. split; [assumption|]. subst. destruct s; reflexivity.
Qed.

(* ---- reading input ---- *)
Lemma rec_run_undef : forall P lib al a x id data ops rs opened e x',
  rec_run P lib al x id data ops rs opened e x' -> prims_ok P ->
  forall d u, cx_winv P a x d -> cops_ok ops -> e = EndUndef u -> u = UbNegativeShift.
Proof.
  intros P lib al a x id data ops rs opened e x' H HP. induction H; intros d u0 W Hok E; try discriminate.
  - inversion E; subst. pose proof (Forall_inv Hok) as Hop. cbn [fst] in Hop.
    pose proof (cstep_weak P lib a x d _ fs HP W Hop) as K. rewrite H1 in K. exact K.
  - pose proof (Forall_inv Hok) as Hop. cbn [fst] in Hop. pose proof (Forall_inv_tail Hok) as Hok'.
    pose proof (cstep_weak P lib a x d _ fs HP W Hop) as K. rewrite H1 in K. cbn [safe] in K. destruct K as [K _]. eauto.
Qed.

Lemma F27 : forall P lib al a ops rs f, protector P lib al a ops rs f ->
  forall op fs, fop_ok op ->
  (forall input, op = FProtect input \/ (exists id buf, op = FProtectInto input id buf) ->
     exists y, fstep P lib al f op fs = Done y) /\
  (forall input, op = FUnprotect input \/ (exists buf, op = FUnprotectInto input buf) ->
     Forall nonempty_iov input ->
     (exists y, fstep P lib al f op fs = Done y) \/ fstep P lib al f op fs = Undef UbNegativeShift).
Proof.
  intros P lib al a ops rs f Hp op fs Hop. pose proof Hp as (HP & HA & _).
  destruct (protector_winv _ _ _ _ _ _ _ Hp) as (d & din & W & Ro & Ri). split.
  - intros input [-> | (id & buf & ->)].
    + destruct (F23 P lib al a ops rs f Hp input fs Hop) as ((f1 & st & bs & size & es & A & _) & _). eauto.
    + destruct (F23 P lib al a ops rs f Hp input fs Hop) as (_ & H). destruct (H id buf) as (f1 & st & bs & es & A & _). eauto.
  - intros input [-> | (buf & ->)] Hne; cbn [fstep].
    + pose proof (unprotect_spec P lib al (c_args a) f input d fs HP HA W Hop) as K.
      destruct (fp_unprotect P lib al f input fs) as [[[[f1 st1] bufs1] fs']|u|]; cbn [obind]; [left; eauto| |contradiction].
      destruct K as [K|(cops & crs & opened & x' & R & Hcok & _)]; [contradiction|].
      right. rewrite (rec_run_undef P lib al (c_args a) _ _ _ _ _ _ _ _ R HP d u W Hcok eq_refl). reflexivity.
    + pose proof (unprotect_into_spec P lib (c_args a) f input buf d fs HP W Hop) as K.
      destruct (fp_unprotect_into P lib f input (IoBuf buf) fs) as [[[[[f1 st1] out1] n1] fs']|u|]; cbn [obind]; [left; eauto| |contradiction].
      destruct K as [K|(hdr & ps & rest & _ & _ & Hc & K)]; [contradiction|].
      pose proof (cstep_weak P lib (c_args a) _ d _ fs HP W Hc) as Q. rewrite K in Q. cbn [safe] in Q. subst u. right. reflexivity.
Qed.

(* ---- creation ---- *)
Lemma F32 : forall P lib a fs, prims_ok P -> ca_in_seq (fa_crypt a) < two64 -> ca_out_seq (fa_crypt a) < two64 ->
  let c := fa_crypt a in
  let valid := fa_allocator a = true /\ fa_destroy a = true /\ fa_logger a = true /\
     ca_url c <> [] /\ ca_tls c = TLS1_3 /\
     lenN (ca_in_secret c) = spec_hash_len (ca_suite c) /\
     lenN (ca_out_secret c) = spec_hash_len (ca_suite c) in
  exists r fs', fp_create P lib a fs = Done (r, fs') /\
    (forall c, r = inl c -> c <> kOk) /\
    ((exists f, r = inr f) -> valid) /\
    (valid -> fs = [] -> exists f, r = inr f).
Proof.
  intros P lib a fs HP Hi Ho c valid. unfold fp_create.
  destruct (negb (fa_allocator a) || negb (fa_destroy a) || negb (fa_logger a)) eqn:Ef.
  - exists (inl kInvalidArgument), fs. split; [reflexivity|]. split; [intros c0 K; inversion K; discriminate|].
    split; [intros (f & K); discriminate|]. intros (A1 & A2 & A3 & _). rewrite A1, A2, A3 in Ef. discriminate.
  - destruct (fa_allocator a) eqn:E1, (fa_destroy a) eqn:E2, (fa_logger a) eqn:E3; try discriminate.
    match goal with |- context [crypt_create P lib ?y] => replace y with (c_args a) by (unfold c_args; rewrite E3; reflexivity) end.
    destruct (W32 P lib (c_args a) fs HP Hi Ho) as (r & fs' & A & B & C & D).
    unfold bind at 1. rewrite A. destruct r as [st|x].
    + exists (inl st), fs'. split; [reflexivity|]. split; [intros c0 K; inversion K; subst; apply B; reflexivity|].
      split; [intros (f & K); discriminate|]. intros (_ & _ & _ & V1 & V2 & V3 & V4) Hf. exfalso.
      destruct D as (x & K); [|exact Hf|discriminate]. cbn [c_args ca_url ca_logger ca_sender ca_tls ca_in_secret ca_out_secret ca_suite]. auto 10.
    + destruct (create_winv P lib (c_args a) fs fs' x HP Hi Ho A) as [W _].
      destruct (cw_in _ _ _ _ W) as (din & Ri & _). unfold bind, lift. rewrite (record_overhead_spec _ _ _ Ri). cbn [ret].
      eexists _, fs'. split; [reflexivity|]. split; [discriminate|]. split; [|eauto].
      intros _. destruct C as (V1 & V2 & V3 & V4 & V5 & V6); [eauto|]. unfold valid. auto 10.
Qed.

(* ---- the connection ---- *)
Lemma F04 : forall P lib al a ops rs f, protector P lib al a ops rs f ->
  forall e, NoDup (nonces (cx_out (fp_crypt f)) e).
Proof.
  intros P lib al a ops rs f Hp. destruct (protector_connection _ _ _ _ _ _ _ Hp) as (_ & _ & _ & _ & cops & crs & HC).
  exact (W04 P lib (c_args a) cops crs _ HC).
Qed.

Lemma closed_step : forall P lib a x d hdr ps buf fs, prims_ok P -> cx_winv P a x d -> cx_close x = true ->
  cop_ok (CUnprotect hdr ps buf) ->
  cstep P lib x (CUnprotect hdr ps buf) fs = Done (x, CUnprotected S_ALERT_CLOSE_NOTIFY 0 (IoBuf buf)).
Proof.
  intros P lib a x d hdr ps buf fs HP W Hc (B1 & B2 & B3 & B4). destruct (cw_in _ _ _ _ W) as (din & Ri & _).
  destruct (crypt_unprotect_spec P lib x din hdr ps buf fs HP Ri B1 B2 B4) as (K & _).
  cbn [cstep]. rewrite (K Hc). reflexivity.
Qed.

Lemma F14 : forall P lib al a ops rs f, protector P lib al a ops rs f -> cx_close (fp_crypt f) = true ->
  forall input fs, fop_ok (FUnprotect input) -> Forall nonempty_iov input ->
  (exists f' st, fstep P lib al f (FUnprotect input) fs = Done (f', FUnprotected st []) /\ st <> kOk /\ fp_crypt f' = fp_crypt f) /\
  (forall buf, exists f' st len, fstep P lib al f (FUnprotectInto input buf) fs = Done (f', FUnprotectedInto st (IoBuf buf) len) /\
     st <> kOk /\ fp_crypt f' = fp_crypt f).
Proof.
  intros P lib al a ops rs f Hp Hc input fs Hop Hne. pose proof Hp as (HP & HA & _).
  destruct (protector_winv _ _ _ _ _ _ _ Hp) as (d & din & W & Ro & Ri). split.
  - cbn [fstep]. pose proof (unprotect_spec P lib al (c_args a) f input d fs HP HA W Hop) as K.
    destruct (fp_unprotect P lib al f input fs) as [[[[f1 st1] bufs1] fs']|u|]; cbn [obind]; [| |contradiction].
    + destruct K as [(_ & -> & -> & -> & _)|(Hsz & cops & crs & opened & e & R & Hok & _ & L)].
      * eexists _, _. split; [reflexivity|]. split; [discriminate|reflexivity].
      * exists f1, st1. remember (iov_concat input) as data eqn:Ed.
        pose proof Hop as (Hv & _). rewrite (sum_lens_concat _ Hv), <- Ed in Hsz.
        destruct L as (_ & _ & L). remember (fp_crypt f) as x eqn:Ex. remember (fp_crypt f1) as y eqn:Ey.
        destruct R; try (destruct L as (-> & -> & _)); try contradiction.
        -- lia.
        -- split; [reflexivity|]. split; [discriminate|reflexivity].
        -- pose proof (Forall_inv Hok) as Hop1. cbn [fst] in Hop1.
           rewrite (closed_step P lib (c_args a) x d _ _ _ _ HP W Hc Hop1) in H1. inversion H1; subst.
           split; [reflexivity|]. split; [discriminate|reflexivity].
        -- pose proof (Forall_inv Hok) as Hop1. cbn [fst] in Hop1.
           rewrite (closed_step P lib (c_args a) x d _ _ _ _ HP W Hc Hop1) in H1. discriminate.
    + exfalso. destruct K as [K|(cops & crs & opened & x' & R & Hok & _)]; [contradiction|].
      remember (iov_concat input) as data eqn:Ed. remember (EndUndef u) as e eqn:Ee. remember (fp_crypt f) as x eqn:Ex.
      destruct R; try discriminate; pose proof (Forall_inv Hok) as Hop1; cbn [fst] in Hop1;
        rewrite (closed_step P lib (c_args a) x d _ _ _ _ HP W Hc Hop1) in H1; discriminate.
  - intros buf. cbn [fstep]. pose proof (unprotect_into_spec P lib (c_args a) f input buf d fs HP W Hop) as K.
    destruct (fp_unprotect_into P lib f input (IoBuf buf) fs) as [[[[[f1 st1] out1] n1] fs']|u|]; cbn [obind]; [| |contradiction].
    + exists f1, st1, n1.
      destruct K as [(_ & -> & -> & -> & _)|[(_ & _ & -> & -> & -> & _)|(_ & hdr & ps & rest & x' & s & n & K1 & K2 & K3 & K4 & K4' & K5 & K6)]].
      * split; [reflexivity|]. split; [discriminate|reflexivity].
      * split; [reflexivity|]. split; [discriminate|reflexivity].
      * rewrite (closed_step P lib (c_args a) _ d _ _ _ _ HP W Hc K3) in K4. inversion K4; subst.
        split; [reflexivity|]. split; [discriminate|reflexivity].
    + exfalso. destruct K as [K|(hdr & ps & rest & _ & _ & Hcok & K)]; [contradiction|].
      rewrite (closed_step P lib (c_args a) _ d _ _ _ _ HP W Hc Hcok) in K. discriminate.
Qed.
