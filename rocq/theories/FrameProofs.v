(* Proofs about FrameProt.v: cursors over iovecs and the Protect loop. *)
From Coq Require Import List NArith ZArith Bool Lia ZifyBool ZifyNat ZifyN.
From Verif Require Import Base BaseProofs Aead SpecAead AeadProofs Hkdf HalfConn
  SpecTls HkdfProofs HalfProofs Options HsHandler SpecHs HsProofs Crypter SpecRecord CrypterProofs
  SpecRx CrypterRun CrypterRunProofs FrameProt SpecFrame FrameRun.
Import ListNotations.
Local Open Scope N_scope.
Ltac Zify.zify_post_hook ::= Z.div_mod_to_equations.

(* ---- cursors ---- *)
Definition cur_ok (c : cursor) : Prop :=
  match c with
  | ([], on) => on = 0
  | (v :: _, on) => on = 0 \/ (exists d, v = IoBuf d /\ on < lenN d)
  end.
Definition cur_len (c : cursor) : N :=
  match c with
  | ([], _) => 0
  | (v :: r, on) => iov_len v - on + sum_lens r
  end.
Definition cur_bytes (c : cursor) : bytes :=
  match c with
  | ([], _) => []
  | (v :: r, on) => dropN on (iov_data v) ++ iov_concat r
  end.

Lemma cur_start : forall vs, cur_ok (vs, 0) /\ cur_len (vs, 0) = sum_lens vs /\ cur_bytes (vs, 0) = iov_concat vs.
Proof.
  intros [|v vs]; cbn [cur_ok cur_len cur_bytes sum_lens].
  - auto.
  - rewrite dropN_0, iov_concat_cons. split; [auto|]. split; [lia|reflexivity].
Qed.

Lemma sub64_small : forall a b, b <= a -> a < two64 -> sub64 a b = a - b.
Proof.
  intros a b H1 H2. unfold sub64. replace (a + two64 - b) with (a - b + 1 * two64) by (unfold two64 in *; lia).
  rewrite N.mod_add by discriminate. apply N.mod_small. unfold two64 in *; lia.
Qed.

Lemma sum_lens_le : forall v vs, In v vs -> iov_len v <= sum_lens vs.
Proof. induction vs as [|w vs IH]; intros []; cbn [sum_lens]; [subst; lia|apply IH in H; lia]. Qed.

(* A piece of a valid iovec. *)
Lemma slice_ok : forall v on k, on = 0 \/ (exists d, v = IoBuf d /\ on < lenN d) -> on + k <= iov_len v ->
  exists p, iov_slice v on k = Done p /\ iov_len p = k /\
    (iov_valid p -> iov_valid v \/ k = 0) /\ (iov_valid v -> iov_valid p) /\
    (iov_valid v -> iov_data p = takeN k (dropN on (iov_data v))) /\
    (iov_valid p -> on + k < iov_len v -> 0 < k -> exists d, v = IoBuf d).
Proof.
  intros [d|n] on k Hc Hk; cbn [iov_slice iov_len] in *.
  - exists (IoBuf (takeN k (dropN on d))). split; [reflexivity|]. cbn [iov_len iov_valid iov_data].
    rewrite lenN_takeN, lenN_dropN. split; [lia|]. split; [auto|]. split; [auto|]. split; [auto|]. eauto.
  - destruct Hc as [->|(d & K & _)]; [|discriminate].
    exists (IoNull k). cbn. split; [reflexivity|]. split; [reflexivity|]. split; [auto|].
    split; [intros ->; lia|]. split; [intros _; symmetry; apply takeN_nil|].
    intros ->. lia.
Qed.

Lemma cur_len_cons : forall v r on, cur_len (v :: r, on) = iov_len v - on + sum_lens r.
Proof. reflexivity. Qed.
Lemma cur_bytes_cons : forall v r on, cur_bytes (v :: r, on) = dropN on (iov_data v) ++ iov_concat r.
Proof. reflexivity. Qed.

Definition lens_ok (vs : list iovec) : Prop := Forall (fun v => iov_len v < two64) vs.

Lemma lens_ok_sum : forall vs, sum_lens vs < two64 -> lens_ok vs.
Proof. intros vs H. apply Forall_forall. intros v Hv. apply sum_lens_le in Hv. lia. Qed.

(* Facts about one step over the head iovec. *)
Lemma head_step : forall v on k p, on = 0 \/ (exists d, v = IoBuf d /\ on < lenN d) -> on + k <= iov_len v ->
  iov_valid v -> iov_data p = takeN k (dropN on (iov_data v)) -> k = iov_len v - on ->
  dropN on (iov_data v) = iov_data p /\ lenN (iov_data p) = k.
Proof.
  intros v on k p Hc Hk Hv Hp E.
  assert (L : iov_len v = lenN (iov_data v)) by (destruct v; cbn in *; [reflexivity|subst; reflexivity]).
  rewrite Hp, takeN_all by (rewrite lenN_dropN; lia). split; [reflexivity|]. rewrite lenN_dropN. lia.
Qed.

Lemma valid_len : forall v, iov_valid v -> iov_len v = lenN (iov_data v).
Proof. intros [d|n] H; cbn in *; [reflexivity|subst; reflexivity]. Qed.

Lemma collect_chunk_spec : forall vs on need, lens_ok vs -> cur_ok (vs, on) -> need <= cur_len (vs, on) ->
  exists ps vs' on', collect_chunk vs on need = Done (ps, (vs', on')) /\ sum_lens ps = need /\
    cur_len (vs', on') = cur_len (vs, on) - need /\ lens_ok vs' /\
    (Forall iov_valid vs -> Forall iov_valid ps /\ Forall iov_valid vs') /\
    (Forall iov_valid ps -> cur_ok (vs', on') /\ iov_concat ps = takeN need (cur_bytes (vs, on)) /\
       cur_bytes (vs', on') = dropN need (cur_bytes (vs, on))).
Proof.
  induction vs as [|v vs IH]; intros on need Hl Hc Hn.
  - cbn [cur_len] in Hn. assert (need = 0) by lia. subst. exists [], [], on. cbn. auto 10.
  - cbn [collect_chunk]. destruct (N.eqb_spec need 0) as [->|Hne].
    { exists [], (v :: vs), on. split; [reflexivity|]. split; [reflexivity|]. split; [lia|]. split; [exact Hl|].
      split; [auto|].
      intros _. split; [exact Hc|]. split; [reflexivity|]. rewrite dropN_0. reflexivity. }
    assert (Hon : on <= iov_len v). { destruct Hc as [->|(d & -> & H)]; cbn [iov_len]; lia. }
    inversion Hl as [|? ? Hlv Hlr]; subst.
    rewrite cur_len_cons in Hn |- *.
    rewrite sub64_small by lia. set (k := N.min (iov_len v - on) need).
    destruct (slice_ok v on k Hc ltac:(lia)) as (p & Ep & Lp & V1 & V2 & V3 & V4). rewrite Ep. cbn [obind].
    destruct (N.leb_spec (iov_len v) (on + k)) as [Hfull|Hpart].
    + assert (Ek : k = iov_len v - on) by lia.
      destruct (cur_start vs) as (C1 & C2 & C3).
      destruct (IH 0 (need - k) Hlr C1) as (ps & vs' & on' & E & S1 & S2 & S3 & S4 & S5); [rewrite C2; lia|].
      rewrite E. cbn [obind]. exists (p :: ps), vs', on'. split; [reflexivity|].
      cbn [sum_lens]. rewrite Lp, S1, S2, C2. split; [lia|]. split; [lia|]. split; [exact S3|]. split.
      { intros HV. inversion HV as [|? ? A B]; subst. destruct (S4 B) as [S41 S42]. split; [|exact S42]. constructor; auto. }
      intros HV. inversion HV as [|? ? A B]; subst. destruct (S5 B) as (T1 & T2 & T3). split; [exact T1|].
      assert (K : iov_valid v).
      { destruct (V1 A) as [K|K]; [exact K|]. destruct v as [d|m]; [exact I|].
        destruct Hc as [->|(d & Kd & _)]; [cbn [iov_len iov_valid] in *; lia|discriminate]. }
      { destruct (head_step v on k p Hc ltac:(lia) K (V3 K) Ek) as [Q1 Q2].
        rewrite iov_concat_cons, T2, T3, cur_bytes_cons, C3, Q1, takeN_app_ge, dropN_app_ge, Q2 by lia.
        split; reflexivity. }
    + assert (Ek : k = need) by lia. exists [p], (v :: vs), (on + k). split; [reflexivity|].
      cbn [sum_lens]. rewrite cur_len_cons, Lp. split; [lia|]. split; [lia|]. split; [exact Hl|]. split.
      { intros HV. pose proof (Forall_inv HV). split; [constructor; auto|exact HV]. }
      intros HV. pose proof (Forall_inv HV) as A. destruct (V4 A Hpart) as (d & ->); [lia|].
      cbn [iov_len iov_data cur_ok cur_bytes] in *. split; [right; exists d; split; [reflexivity|lia]|].
      specialize (V3 I). rewrite iov_concat_cons, V3. cbn [iov_concat flat_map]. rewrite app_nil_r.
      assert (Ld : need <= lenN (dropN on d)) by (rewrite lenN_dropN; lia).
      rewrite takeN_app_le, dropN_app_le by exact Ld. rewrite <- Ek. split; [reflexivity|].
      rewrite dropN_dropN. reflexivity.
Qed.

(* ---- the Protect loop ---- *)
Lemma dir_adv_0 : forall d, dir_adv d 0 = d.
Proof. intros [a b c e]. unfold dir_adv. cbn. rewrite N.add_0_r. reflexivity. Qed.
Lemma dir_adv_next : forall d n, dir_adv (dir_next d) n = dir_adv d (1 + n).
Proof. intros d n. unfold dir_adv, dir_next. cbn [d_suite d_secret d_seq d_broken]. f_equal. lia. Qed.

Lemma lenN_records : forall P bs d, prims_ok P -> lenN (records P d bs) = lenN (concat bs) + 22 * lenN bs.
Proof.
  intros P bs d HP. revert d. induction bs as [|b bs IH]; intros d; cbn [records concat]; [reflexivity|].
  rewrite !lenN_app, IH, lenN_tls_record, lenN_cons by exact HP. lia.
Qed.

(* Number of records still to be written. *)
Definition todo (rem : N) (first : bool) : N := if first then 1 else (rem + 16383) / 16384.

Lemma with_crypt_same : forall f x y, with_crypt (with_crypt f x) y = with_crypt f y.
Proof. reflexivity. Qed.

Lemma crun_cons : forall P lib x op fs x1 r ops x' rs,
  cstep P lib x op fs = Done (x1, r) -> crun P lib x1 ops = Done (x', rs) ->
  crun P lib x ((op, fs) :: ops) = Done (x', r :: rs).
Proof. intros. cbn [crun]. rewrite H. cbn [obind]. rewrite H0. reflexivity. Qed.

Definition is_protect (p : cop * faults) : Prop :=
  match fst p with CProtect _ _ _ => True | _ => False end.

(* The blocks written, for the rest of the data. *)
Definition rest_blocks (data : bytes) (first : bool) (bs : list bytes) : Prop :=
  (first = false /\ data = [] /\ bs = []) \/ ((first = true \/ data <> []) /\ blocks_of data bs).

Lemma blocks_count : forall data bs, blocks_of data bs -> lenN bs = record_count (lenN data).
Proof.
  intros data bs (E & init & last & -> & Hi & Hl & He).
  assert (Hlen : lenN data = 16384 * lenN init + lenN last).
  { rewrite <- E, concat_app, lenN_app. cbn [concat]. rewrite app_nil_r. f_equal. clear -Hi.
    induction init as [|b init IH]; [reflexivity|]. inversion Hi; subst. cbn [concat].
    rewrite lenN_app, lenN_cons, IH by assumption. lia. }
  rewrite lenN_app, lenN_cons, lenN_nil. unfold record_count. destruct (N.eqb_spec (lenN data) 0); [lia|].
  destruct last as [|b last].
  - rewrite (He eq_refl) in *. cbn in Hlen. lia.
  - rewrite lenN_cons in Hlen, Hl. lia.
Qed.

Lemma rest_blocks_count : forall data first bs, rest_blocks data first bs -> (first = true -> data = []) ->
  lenN bs = todo (lenN data) first.
Proof.
  intros data first bs [(-> & -> & ->)|(Hn & H)] Hf; [reflexivity|].
  rewrite (blocks_count _ _ H). unfold record_count, todo. destruct first.
  - rewrite Hf by reflexivity. reflexivity.
  - destruct Hn as [K|K]; [discriminate|].
    destruct (N.eqb_spec (lenN data) 0) as [Z|Z]; [apply lenN_0 in Z; contradiction|reflexivity].
Qed.

Lemma blocks_cons : forall b data bs, lenN b = 16384 -> rest_blocks data false bs -> blocks_of (b ++ data) (b :: bs).
Proof.
  intros b data bs Hb [(_ & -> & ->)|(Hn & E & init & last & -> & Hi & Hl & He)].
  - split; [reflexivity|]. exists [], b. split; [reflexivity|]. split; [constructor|]. split; [lia|auto].
  - split; [cbn [concat]; rewrite E; reflexivity|].
    exists (b :: init), last. split; [reflexivity|]. split; [constructor; assumption|]. split; [exact Hl|].
    intros K. exfalso. rewrite (He K), K in E. cbn in E. destruct Hn as [Hn|Hn]; congruence.
Qed.

Lemma blocks_one : forall b, lenN b <= 16384 -> blocks_of b [b].
Proof.
  intros b Hb. split; [apply app_nil_r|]. exists [], b. split; [reflexivity|]. split; [constructor|]. auto.
Qed.

Lemma cur_len_0 : forall c, cur_ok c -> cur_len c = 0 -> cur_bytes c = [].
Proof.
  assert (K : forall vs, sum_lens vs = 0 -> iov_concat vs = []).
  { induction vs as [|v vs IH]; cbn [sum_lens]; intros H; [reflexivity|]. rewrite iov_concat_cons, IH by lia.
    destruct v as [d|n]; cbn in *; [|reflexivity]. rewrite (lenN_0 _ d) by lia. reflexivity. }
  intros [[|v vs] on] Hc H; [reflexivity|]. rewrite cur_len_cons in H. rewrite cur_bytes_cons, K by lia.
  rewrite app_nil_r. destruct Hc as [->|(d & -> & Hd)]; [|cbn in H; lia].
  destruct v as [d|n]; cbn in *; [|reflexivity]. rewrite (lenN_0 _ d) by lia. reflexivity.
Qed.

Lemma todo_step : forall rem, 0 < rem -> todo rem false = 1 + todo (rem - N.min rem 16384) false.
Proof. intros rem H. unfold todo. lia. Qed.

Lemma protect_loop_spec : forall fuel P lib f c rem first out index id fs din d,
  prims_ok P -> half_rel P (cx_in (fp_crypt f)) din -> half_rel P (cx_out (fp_crypt f)) d ->
  lens_ok (fst c) -> cur_ok c -> cur_len c = rem -> (first = true -> rem = 0 /\ (1 <= fuel)%nat) ->
  rem <= 16384 * N.of_nat fuel -> index <= lenN out ->
  exists h' st out' fs' ops rs k,
    let x' := set_out (fp_crypt f) h' in
    protect_loop fuel P f c rem first out index id fs =
      Done ((if is_ok st then with_crypt f x' else fp_destroy (with_crypt f x') id), st, out', fs') /\
    crun P lib (fp_crypt f) ops = Done (x', rs) /\ cops_ok ops /\ Forall is_protect ops /\
    lenN out' = lenN out /\ takeN index out' = takeN index out /\
    half_rel P h' (dir_adv d k) /\ k <= todo rem first /\
    (st = kOk -> k = todo rem first /\ index + rem + 22 * todo rem first <= lenN out /\
       exists bs, rest_blocks (cur_bytes c) first bs /\ lenN (cur_bytes c) = rem /\
        out' = takeN index out ++ records P d bs ++ dropN (index + rem + 22 * todo rem first) out) /\
    (index + rem + 22 * todo rem first <= lenN out -> st <> kFailedPrecondition) /\
    (index + rem + 22 * todo rem first <= lenN out -> d_broken d = false -> d_seq d + todo rem first <= two64 ->
       Forall iov_valid (fst c) -> fs = [] -> st = kOk /\ fs' = []) /\
    (st = kOk \/ st = kFailedPrecondition \/ st = kInvalidArgument \/ st = kInternal).
Proof.
  induction fuel as [|fuel IH]; intros P lib f c rem first out index id fs din d HP Ri Ro Hl Hc Hrem Hfirst Hfuel Hix.
  all: cbn [protect_loop]; destruct (negb (first || (0 <? rem))) eqn:Hstop.
  1,3: assert (first = false /\ rem = 0) as (-> & Hr0) by (destruct first; cbn in Hstop; [discriminate|lia]);
    rewrite Hr0 in *; exists (cx_out (fp_crypt f)), kOk, out, fs, [], [], 0; cbn [ret is_ok code_eqb crun];
    rewrite set_out_same, dir_adv_0; change (todo 0 false) with 0;
    (split; [destruct f; reflexivity|]); (split; [reflexivity|]); (split; [constructor|]); (split; [constructor|]);
    (split; [reflexivity|]); (split; [reflexivity|]); (split; [exact Ro|]); (split; [lia|]);
    (split; [|split; [discriminate|split; [auto|auto]]]); intros _; (split; [reflexivity|]); (split; [lia|]);
    exists []; rewrite (cur_len_0 c Hc Hrem); (split; [left; auto|]); (split; [reflexivity|]);
    cbn [records]; replace (index + 0 + 22 * 0) with index by lia; cbn [app]; symmetry; apply takeN_dropN.
  { exfalso. destruct first; [destruct (Hfirst eq_refl); lia|]. cbn in Hstop. lia. }
  assert (Hgo : first = true /\ rem = 0 \/ first = false /\ 0 < rem).
  { destruct first; [left; split; [reflexivity|apply Hfirst; reflexivity]|right; split; [reflexivity|]]. cbn in Hstop. lia. }
  unfold kTlsMaxPlaintextSize. set (n := if rem <? 16384 then rem else 16384).
  assert (Hn : n = N.min rem 16384) by (unfold n; destruct (N.ltb_spec rem 16384); lia).
  assert (Htodo : todo rem first = 1 + todo (rem - n) false).
  { destruct Hgo as [[-> ->]|[-> Hp]]; [rewrite Hn; reflexivity|rewrite Hn; apply todo_step; exact Hp]. }
  destruct c as [vs on]. cbn [fst snd] in *.
  destruct (collect_chunk_spec vs on n Hl Hc ltac:(lia)) as (ps & vs1 & on1 & E1 & S1 & S2 & S3 & S4 & S5).
  unfold bind at 1, lift at 1. rewrite E1.
  destruct (crypt_protect_spec P (fp_crypt f) din d APPLICATION_DATA ps (dropN index out) fs HP Ri Ro
    ltac:(unfold two64; lia)) as (h1 & st1 & w & tail & fs1 & E2 & L1 & _ & Hnf & Hf).
  rewrite (bind_done _ _ _ _ _ _ _ E2). cbn [iov_data].
  set (x1 := set_out (fp_crypt f) h1) in *. set (out1 := takeN index out ++ tail).
  assert (Lt : lenN tail = lenN out - index) by (rewrite L1, lenN_dropN; reflexivity).
  assert (Lo : lenN out1 = lenN out) by (unfold out1; rewrite lenN_app, lenN_takeN; lia).
  assert (Ti : takeN index out1 = takeN index out).
  { unfold out1. rewrite takeN_app_le by (rewrite lenN_takeN; lia). rewrite takeN_takeN. f_equal. lia. }
  assert (Ec : cstep P lib (fp_crypt f) (CProtect APPLICATION_DATA ps (dropN index out)) fs =
    Done (x1, CProtected st1 w (IoBuf tail))) by (cbn [cstep]; rewrite E2; reflexivity).
  assert (Hop : cop_ok (CProtect APPLICATION_DATA ps (dropN index out))) by (cbn [cop_ok]; unfold two64; lia).
  assert (Hfit : fits ps (dropN index out) <-> n + 22 <= lenN out - index).
  { unfold fits. rewrite lenN_dropN. lia. }
  assert (Hk : exists k, half_rel P h1 (dir_adv d k) /\ k <= 1 /\ (st1 = S_OK -> k = 1 /\ dir_usable d)).
  { assert (Dec : n + 22 <= lenN out - index \/ ~ n + 22 <= lenN out - index) by lia.
    destruct Dec as [D|D].
    - apply Hfit in D. destruct (Hf D) as [Hun Hus]. destruct (dir_usable_dec d) as [U|U].
      + destruct (Hus U) as (R1 & _). exists 1. split; [|split; [lia|auto]].
        change 1 with (1 + 0) at 1. rewrite <- dir_adv_next, dir_adv_0. exact R1.
      + destruct (Hun U) as (-> & -> & _). exists 0. rewrite dir_adv_0. split; [exact Ro|]. split; [lia|discriminate].
    - rewrite <- Hfit in D. destruct (Hnf D) as (-> & -> & _). exists 0. rewrite dir_adv_0. split; [exact Ro|]. split; [lia|discriminate]. }
  destruct Hk as (k1 & Rk & Hk1 & Hk2).
  assert (Hrel : record_overhead x1 = Done 22) by (apply (record_overhead_spec P x1 din); exact Ri).
  assert (Hbad : st1 <> S_OK ->
    exists h' st out' fs' ops rs k,
    let x' := set_out (fp_crypt f) h' in
    Done ((fp_destroy (with_crypt f x1) id, fp_code st1, out1), fs1) =
      Done ((if is_ok st then with_crypt f x' else fp_destroy (with_crypt f x') id), st, out', fs') /\
    crun P lib (fp_crypt f) ops = Done (x', rs) /\ cops_ok ops /\ Forall is_protect ops /\
    lenN out' = lenN out /\ takeN index out' = takeN index out /\
    half_rel P h' (dir_adv d k) /\ k <= todo rem first /\
    (st = kOk -> k = todo rem first /\ index + rem + 22 * todo rem first <= lenN out /\
       exists bs, rest_blocks (cur_bytes (vs, on)) first bs /\ lenN (cur_bytes (vs, on)) = rem /\
        out' = takeN index out ++ records P d bs ++ dropN (index + rem + 22 * todo rem first) out) /\
    (index + rem + 22 * todo rem first <= lenN out -> st <> kFailedPrecondition) /\
    (index + rem + 22 * todo rem first <= lenN out -> d_broken d = false -> d_seq d + todo rem first <= two64 ->
       Forall iov_valid vs -> fs = [] -> st = kOk /\ fs' = []) /\
    (st = kOk \/ st = kFailedPrecondition \/ st = kInvalidArgument \/ st = kInternal)).
  { intros Hst.
    assert (Hcode : fp_code st1 = kFailedPrecondition \/ fp_code st1 = kInvalidArgument \/ fp_code st1 = kInternal).
    { assert (Dec : n + 22 <= lenN out - index \/ ~ n + 22 <= lenN out - index) by lia.
      destruct Dec as [D|D]; [|rewrite <- Hfit in D; destruct (Hnf D) as (_ & -> & _); auto].
      apply Hfit in D. destruct (Hf D) as [Hun Hus]. destruct (dir_usable_dec d) as [U|U].
      - destruct (Hus U) as (_ & _ & _ & Hbad & _). destruct (Hbad Hst) as (_ & _ & [-> | ->]); auto.
      - destruct (Hun U) as (_ & -> & _). auto. }
    exists h1, (fp_code st1), out1, fs1, [(CProtect APPLICATION_DATA ps (dropN index out), fs)],
      [CProtected st1 w (IoBuf tail)], k1. cbn zeta.
    assert (Hno : is_ok (fp_code st1) = false) by (destruct Hcode as [-> | [-> | ->]]; reflexivity).
    split; [rewrite Hno; reflexivity|].
    split; [apply (crun_cons _ _ _ _ _ x1 _ []); [exact Ec|reflexivity]|].
    split; [constructor; [exact Hop|constructor]|]. split; [constructor; [exact I|constructor]|].
    split; [exact Lo|]. split; [exact Ti|]. split; [exact Rk|]. split; [lia|].
    split; [intros K; rewrite K in Hno; discriminate|].
    assert (Hroom : index + rem + 22 * todo rem first <= lenN out -> fits ps (dropN index out)).
    { intros H. apply Hfit. lia. }
    split.
    { intros H K. destruct (Hf (Hroom H)) as [Hun Hus]. destruct (dir_usable_dec d) as [U|U].
      - destruct (Hus U) as (_ & _ & _ & Hb & _). destruct (Hb Hst) as (_ & _ & [Q|Q]); rewrite Q in K; discriminate.
      - destruct (Hun U) as (_ & Q & _). rewrite Q in K; discriminate. }
    split; [|destruct Hcode as [-> | [-> | ->]]; auto].
    intros H Hb Hs Hv Hfs. exfalso. destruct (Hf (Hroom H)) as [_ Hus].
    destruct Hus as (_ & _ & _ & _ & Hok); [split; [exact Hb|lia]|].
    apply Hst. apply Hok; [apply S4; exact Hv|exact Hfs]. }
  assert (Dec : st1 = S_OK \/ st1 <> S_OK) by (destruct st1; (left; reflexivity) || (right; discriminate)).
  destruct Dec as [Hst|Hst].
  2: { destruct (Hbad Hst) as (h' & st & out' & fs' & ops & rs & k & A & B). exists h', st, out', fs', ops, rs, k.
       split; [|exact B]. refine (eq_trans _ A). destruct st1; try reflexivity. contradiction. }
  clear Hbad. destruct (Hk2 Hst) as [-> U].
  assert (Fit : fits ps (dropN index out)).
  { apply Hfit. destruct (N.leb_spec (n + 22) (lenN out - index)); [assumption|].
    destruct Hnf as (_ & K & _); [rewrite Hfit; lia|congruence]. }
  destruct (Hf Fit) as [_ Hus]. destruct (Hus U) as (R1 & _ & Hok & _ & Hgood). rewrite Hst in *.
  destruct (Hok eq_refl) as (Vps & Hw & Ht). apply Hfit in Fit.
  destruct (S5 Vps) as (C1 & C2 & C3). clear Hok Hus Hf Hnf.
  unfold bind at 1, lift at 1. rewrite Hrel. rewrite Hw, S1, N.eqb_refl. cbn [negb].
  set (f1 := with_crypt f x1).
  destruct (IH P lib f1 (vs1, on1) (rem - n) false out1 (index + (n + 22)) id fs1 din (dir_next d) HP Ri R1 S3 C1
    ltac:(lia) ltac:(discriminate) ltac:(lia) ltac:(lia))
    as (h' & st & out' & fs' & ops & rs & k & A & B1 & B2 & B3 & B4 & B5 & B6 & B7 & B8 & B9 & B10 & B11).
  cbn zeta in *. change (fp_crypt f1) with x1 in *.
  change (set_out x1 h') with (set_out (fp_crypt f) h') in *.
  unfold f1 in A. rewrite with_crypt_same in A.
  exists h', st, out', fs', ((CProtect APPLICATION_DATA ps (dropN index out), fs) :: ops),
    (CProtected S_OK w (IoBuf tail) :: rs), (1 + k).
  split; [exact A|]. split; [apply (crun_cons _ _ _ _ _ x1); assumption|].
  split; [constructor; assumption|]. split; [constructor; [exact I|assumption]|]. split; [lia|].
  assert (Lch : lenN (iov_concat ps) = n) by (rewrite <- S1; symmetry; apply sum_lens_concat; exact Vps).
  assert (Lrec : lenN (tls_record P d ty_application_data (iov_concat ps) 0) = n + 22)
    by (rewrite lenN_tls_record by exact HP; lia).
  change (convert_record_type APPLICATION_DATA) with ty_application_data in Ht.
  split.
  { replace (takeN index out') with (takeN index (takeN (index + (n + 22)) out'))
      by (rewrite takeN_takeN; f_equal; lia).
    rewrite B5, takeN_takeN. replace (N.min index (index + (n + 22))) with index by lia. exact Ti. }
  split; [rewrite <- dir_adv_next; exact B6|]. split; [lia|].
  replace (index + rem + 22 * todo rem first) with (index + (n + 22) + (rem - n) + 22 * todo (rem - n) false) by lia.
  rewrite Lo in *.
  split.
  { intros K. destruct (B8 K) as (-> & Q2 & bs & Q3 & Q4 & Q5). split; [lia|]. split; [exact Q2|].
    exists (iov_concat ps :: bs).
    assert (Eb : cur_bytes (vs, on) = iov_concat ps ++ cur_bytes (vs1, on1)).
    { rewrite C2, C3. symmetry. apply takeN_dropN. }
    split; [|split].
    - right. split.
      { destruct Hgo as [[-> _]|[-> Hp]]; [left; reflexivity|right].
        intros K2. rewrite Eb in K2. apply app_eq_nil in K2. destruct K2 as [K2 _]. rewrite K2 in Lch. cbn in Lch. lia. }
      rewrite Eb. assert (Dec : n = 16384 \/ rem - n = 0) by lia. destruct Dec as [D|D].
      + apply blocks_cons; [lia|exact Q3].
      + rewrite (cur_len_0 (vs1, on1) C1) in Q3 |- * by lia. rewrite app_nil_r.
        destruct Q3 as [(_ & _ & ->)|([K2|K2] & _)]; [|discriminate|congruence]. apply blocks_one. lia.
    - rewrite Eb, lenN_app, Q4. lia.
    - rewrite Q5. cbn [records]. rewrite <- app_assoc.
      assert (Eo : takeN (index + (n + 22)) out1 = takeN index out ++ tls_record P d ty_application_data (iov_concat ps) 0).
      { unfold out1. rewrite takeN_app_ge by (rewrite lenN_takeN; lia). f_equal. rewrite lenN_takeN.
        replace (index + (n + 22) - N.min index (lenN out)) with (n + 22) by lia.
        rewrite Ht, <- Lrec. apply takeN_app_exact. }
      assert (Ed : forall m, dropN (index + (n + 22) + m) out1 = dropN (index + (n + 22) + m) out).
      { intros m. unfold out1. rewrite dropN_app_ge by (rewrite lenN_takeN; lia). rewrite lenN_takeN, Ht.
        rewrite dropN_app_ge by lia. rewrite dropN_dropN, dropN_dropN, Hw, S1, Lrec. f_equal. lia. }
      rewrite Eo, <- app_assoc. do 3 f_equal.
      rewrite <- !(N.add_assoc (index + (n + 22))). apply Ed. }
  split; [exact B9|]. split; [|exact B11].
  intros Q1 Q2 Q3 Q4 Q5. destruct (S4 Q4) as [Q6 Q7]. apply B10; [exact Q1|exact Q2| |exact Q7|].
  - unfold dir_next; cbn [d_seq]. lia.
  - apply Hgood; assumption.
Qed.

Lemma todo_count : forall n, todo n (n =? 0) = record_count n.
Proof. intros n. unfold todo, record_count. destruct (n =? 0); reflexivity. Qed.

Lemma rest_blocks_all : forall data bs, rest_blocks data (lenN data =? 0) bs -> blocks_of data bs.
Proof.
  intros data bs [(E & -> & ->)|(_ & H)]; [discriminate|exact H].
Qed.

(* Protect into a buffer. *)
Lemma protect_into_spec : forall P lib f input id buf fs din d,
  prims_ok P -> half_rel P (cx_in (fp_crypt f)) din -> half_rel P (cx_out (fp_crypt f)) d ->
  sum_lens input < two64 ->
  exists h' st out' fs' ops rs k,
    let x' := set_out (fp_crypt f) h' in
    fp_protect_into P f input id (IoBuf buf) fs =
      Done ((if is_ok st then with_crypt f x' else fp_destroy (with_crypt f x') id), st, IoBuf out', fs') /\
    crun P lib (fp_crypt f) ops = Done (x', rs) /\ cops_ok ops /\ Forall is_protect ops /\
    lenN out' = lenN buf /\
    half_rel P h' (dir_adv d k) /\ k <= record_count (sum_lens input) /\
    (st = kOk -> k = record_count (sum_lens input) /\ protected_size (sum_lens input) <= lenN buf /\
       exists bs, blocks_of (iov_concat input) bs /\ lenN (iov_concat input) = sum_lens input /\
        out' = records P d bs ++ dropN (protected_size (sum_lens input)) buf) /\
    (protected_size (sum_lens input) <= lenN buf -> st <> kFailedPrecondition) /\
    (protected_size (sum_lens input) <= lenN buf -> d_broken d = false ->
       d_seq d + record_count (sum_lens input) <= two64 ->
       Forall iov_valid input -> fs = [] -> st = kOk /\ fs' = []) /\
    (st = kOk \/ st = kFailedPrecondition \/ st = kInvalidArgument \/ st = kInternal).
Proof.
  intros P lib f input id buf fs din d HP Ri Ro Hl. unfold fp_protect_into. rewrite total_len_sum by exact Hl.
  destruct (cur_start input) as (C1 & C2 & C3). unfold kTlsMaxPlaintextSize.
  destruct (protect_loop_spec (S (N.to_nat (sum_lens input / 16384))) P lib f (input, 0) (sum_lens input)
    (sum_lens input =? 0) buf 0 id fs din d HP Ri Ro (lens_ok_sum _ Hl) C1 C2 ltac:(lia) ltac:(lia) ltac:(lia))
    as (h' & st & out' & fs' & ops & rs & k & A & B1 & B2 & B3 & B4 & B5 & B6 & B7 & B8 & B9 & B10 & B11).
  rewrite C3, todo_count in *. cbn zeta in *. rewrite N.add_0_l in *. fold (protected_size (sum_lens input)) in *.
  exists h', st, out', fs', ops, rs, k. rewrite (bind_done _ _ _ _ _ _ _ A).
  split; [reflexivity|]. repeat (split; [assumption|]). split; [|auto].
  intros K. destruct (B8 K) as (Q1 & Q2 & bs & Q3 & Q4 & Q5). split; [exact Q1|]. split; [exact Q2|]. exists bs.
  split; [apply rest_blocks_all; rewrite Q4; exact Q3|]. auto.
Qed.

Lemma number_bytes_spec : forall P f din n, half_rel P (cx_in (fp_crypt f)) din -> protected_size n < two64 ->
  number_bytes_to_protect f n = Done (protected_size n).
Proof.
  intros P f din n Ri H. unfold number_bytes_to_protect. rewrite (record_overhead_spec _ _ _ Ri). cbn [obind].
  f_equal. unfold wrap64, kTlsMaxPlaintextSize. rewrite N.mod_small; unfold protected_size, record_count in *.
  - destruct (N.eqb_spec n 0) as [->|Hn]; [reflexivity|]. cbn [orb].
    destruct (N.eqb_spec (n / 16384 * 16384) n); cbn [negb]; lia.
  - destruct (N.eqb_spec n 0) as [->|Hn]; [exact H|]. cbn [orb].
    destruct (N.eqb_spec (n / 16384 * 16384) n); cbn [negb]; lia.
Qed.

(* Protect with allocation. *)
Lemma protect_spec : forall P lib al f input fs din d,
  prims_ok P -> alloc_ok al -> half_rel P (cx_in (fp_crypt f)) din -> half_rel P (cx_out (fp_crypt f)) d ->
  protected_size (sum_lens input) < two64 ->
  exists h' st bufs fs' ops rs k,
    let x' := set_out (fp_crypt f) h' in
    let id := fp_next f in
    fp_protect P al f input fs =
      Done ({| fp_crypt := x'; fp_max := fp_max f; fp_next := id + 1;
               fp_events := fp_events f ++ EvAlloc id (protected_size (sum_lens input)) ::
                 (if is_ok st then [] else [EvDestroy id; EvDestroy id]) |}, st, bufs, fs') /\
    crun P lib (fp_crypt f) ops = Done (x', rs) /\ cops_ok ops /\ Forall is_protect ops /\
    half_rel P h' (dir_adv d k) /\ k <= record_count (sum_lens input) /\
    (st <> kOk -> bufs = []) /\
    (st = kOk -> k = record_count (sum_lens input) /\
       exists bs, blocks_of (iov_concat input) bs /\ lenN (iov_concat input) = sum_lens input /\
        bufs = [{| fb_id := id; fb_mem := IoBuf (records P d bs); fb_len := protected_size (sum_lens input) |}]) /\
    (d_broken d = false -> d_seq d + record_count (sum_lens input) <= two64 ->
       Forall iov_valid input -> fs = [] -> st = kOk /\ fs' = []) /\
    (st = kOk \/ st = kInvalidArgument \/ st = kInternal).
Proof.
  intros P lib al f input fs din d HP HA Ri Ro Hp. unfold fp_protect.
  assert (Hl : sum_lens input < two64) by (unfold protected_size in Hp; lia).
  unfold bind at 1, lift at 1. rewrite total_len_sum by exact Hl. rewrite (number_bytes_spec P f din) by assumption.
  unfold fp_alloc. destruct (HA (fp_next f) (protected_size (sum_lens input))) as (buf & Eb & Lb). rewrite Eb.
  set (f1 := {| fp_crypt := fp_crypt f; fp_max := fp_max f; fp_next := fp_next f + 1;
    fp_events := fp_events f ++ [EvAlloc (fp_next f) (protected_size (sum_lens input))] |}).
  destruct (protect_into_spec P lib f1 input (fp_next f) buf fs din d HP Ri Ro Hl)
    as (h' & st & out' & fs' & ops & rs & k & A & B1 & B2 & B3 & B4 & B6 & B7 & B8 & B9 & B10 & B11).
  cbn zeta in *. rewrite Lb in *. rewrite (bind_done _ _ _ _ _ _ _ A).
  assert (Dec : st = kOk \/ st <> kOk) by (destruct st; (left; reflexivity) || (right; discriminate)).
  exists h', st, (if is_ok st then [{| fb_id := fp_next f; fb_mem := IoBuf out'; fb_len := lenN out' |}] else []),
    fs', ops, rs, k.
  split.
  { destruct Dec as [->|Hn].
    - cbn. reflexivity.
    - replace (is_ok st) with false by (destruct st; try reflexivity; contradiction).
      unfold fp_destroy, with_crypt, f1. cbn [fp_crypt fp_max fp_next fp_events negb ret]. rewrite <- !app_assoc. reflexivity. }
  repeat (split; [assumption|]). split.
  { intros Hn. destruct st; try reflexivity. contradiction. }
  split.
  { intros ->. destruct (B8 eq_refl) as (Q1 & _ & bs & Q2 & Q3 & Q4). split; [exact Q1|]. exists bs.
    split; [exact Q2|]. split; [exact Q3|]. cbn [is_ok code_eqb]. rewrite B4, Q4, dropN_all by lia. rewrite app_nil_r. reflexivity. }
  split; [apply B10; lia|]. destruct B11 as [K|[K|K]]; auto. destruct B9; [lia|exact K].
Qed.
