(* One direction of a connection with an attacker on the wire: proofs. *)
From Coq Require Import List NArith ZArith Bool Lia ZifyBool ZifyNat ZifyN.
From Verif Require Import Base BaseProofs Aead SpecAead Hkdf HalfConn SpecTls Options HsHandler Crypter SpecHs SpecRecord
  SpecRx SpecRxProofs CrypterRun FrameProt SpecFrame FrameRun FrameRef HalfProofs CrypterProofs CrypterRunProofs
  FrameProofs FrameSim FrameTrip FrameFinal FrameNull FrameRefProofs Conc ConcAlone ConcBoth ConcPair ConcPairProofs SpecStream.
Import ListNotations.
Local Open Scope N_scope.

Lemma subseq_nil : forall A (m : list A), subseq [] m.
Proof. induction m; constructor; assumption. Qed.
Lemma subseq_app : forall A (l l' m m' : list A), subseq l m -> subseq l' m' -> subseq (l ++ l') (m ++ m').
Proof. intros A l l' m m' H H'. induction H; cbn [app]; [exact H'|apply SubSkip; assumption|apply SubTake; assumption]. Qed.
Lemma subseq_refl : forall A (l : list A), subseq l l.
Proof. induction l; constructor; assumption. Qed.
Lemma subseq_skip : forall A n (l m : list A), subseq l (skipn n m) -> subseq l m.
Proof.
  induction n as [|n IH]; intros l [|x m] H; cbn [skipn] in H; auto. apply SubSkip. auto.
Qed.

Lemma skipn_twice : forall A n k (l : list A), skipn n (skipn k l) = skipn (n + k) l.
Proof.
  intros A n k. induction k as [|k IH]; intro l; [rewrite Nat.add_0_r; reflexivity|].
  rewrite Nat.add_succ_r. destruct l as [|x l]; [destruct n; reflexivity|]. cbn [skipn]. apply IH.
Qed.

(* ---- the receiver ---- *)
Section Receive.
Variables (P : prims) (d : dir) (bs : list bytes).
Hypothesis HP : prims_ok P.

(* The state after [k] sequence numbers have been used. *)
Definition at_ (k : N) : rx := rx_start (dir_adv d k).

Lemma adv_next : forall k, dir_next (dir_adv d k) = dir_adv d (k + 1).
Proof. intro k. unfold dir_next, dir_adv. cbn. f_equal. lia. Qed.

Lemma recv_genuine : forall F k p buf st n out r', lenN p < 65536 ->
  (forall i msg, dir_usable (dir_adv d i) -> p = dir_seal P (dir_adv d i) (tls_header (lenN p)) msg ->
     exists b, nth_error bs (N.to_nat i) = Some b /\ framed p = tls_record P (dir_adv d i) ty_application_data b 0) ->
  recv P F (at_ k) (tls_header (lenN p)) p buf st n out r' ->
  (st <> S_OK /\ exists k', k <= k' /\ r' = at_ k') \/
  (st = S_OK /\ r' = at_ (k + 1) /\ exists b, nth_error bs (N.to_nat k) = Some b /\ takeN n out = b).
Proof.
  intros F k p buf st n out r' Hp G H. inversion H; subst.
  - discriminate.
  - left. split; [destruct (16384 + 22 <? _); discriminate|]. exists k. split; [lia|reflexivity].
  - left. split; [discriminate|]. exists k. split; [lia|reflexivity].
  - left. split; [discriminate|]. exists (k + 1). split; [lia|].
    unfold at_ at 1 2. cbn [r_dir rx_start]. rewrite adv_next. reflexivity.
  - right. cbn [at_ r_dir rx_start] in *.
    match goal with U : dir_usable _, K : p = dir_seal P _ _ ?m |- _ =>
      destruct (G k m U K) as (b & Eb & Er); assert (Em : m = inner ty_application_data b 0) end.
    { unfold framed, tls_record, tls_ciphertext in Er.
      apply app_split in Er; [|rewrite !lenN_tls_header; reflexivity]. destruct Er as [Eh Ep].
      rewrite <- Eh in Ep.
      match goal with K : p = dir_seal P _ _ ?m |- _ => exact (dir_seal_inj _ _ _ _ _ HP (eq_trans (eq_sym K) Ep)) end. }
    subst msg.
    match goal with K : accept _ _ _ _ _ _ _ _ _ |- _ => inversion K; subst end.
    all: try solve [exfalso; match goal with K : inner _ _ _ = zeros _ |- _ => apply inner_not_zero in K; [exact K|discriminate] end].
    all: try match goal with K : inner _ _ _ = inner _ _ _ |- _ =>
      apply inner_inj in K; [|discriminate|first [discriminate|assumption]]; destruct K as (Kt & Kc & Kp) end.
    all: try discriminate Kt.
    all: try congruence.
    all: try match goal with K : r_wait _ = true |- _ => discriminate K end.
    subst. split; [reflexivity|]. split.
    + unfold rx_data, rx_dir, at_, rx_start. cbn. rewrite adv_next. reflexivity.
    + exists c. split; [exact Eb|]. unfold inner. rewrite <- !app_assoc. apply takeN_app_exact.
Qed.

Lemma public_ok : forall st, public_code st = kOk -> st = S_OK.
Proof. intros st. rewrite public_fp_code. apply fp_code_ok. Qed.

Lemma no_forgery_here : forall p rest, no_forgery P d bs (framed p ++ rest) -> lenN p < 65536 ->
  forall i msg, dir_usable (dir_adv d i) -> p = dir_seal P (dir_adv d i) (tls_header (lenN p)) msg ->
     exists b, nth_error bs (N.to_nat i) = Some b /\ framed p = tls_record P (dir_adv d i) ty_application_data b 0.
Proof. intros p rest H L i msg U E. exact (H i p [] rest msg eq_refl L U E). Qed.

Lemma no_forgery_tail : forall a b, no_forgery P d bs (a ++ b) -> no_forgery P d bs b.
Proof.
  intros a b H i p pre post msg E. apply (H i p (a ++ pre) post msg). rewrite E, <- app_assoc. reflexivity.
Qed.

Lemma skipn_nth : forall A k (l : list A) x, nth_error l k = Some x -> skipn k l = x :: skipn (S k) l.
Proof. induction k as [|k IH]; intros [|y l] x H; try discriminate; [injection H as <-; reflexivity|]. cbn [nth_error] in H. cbn [skipn]. rewrite (IH l x H). reflexivity. Qed.

Lemma recv_all_genuine : forall F r data st cs r', recv_all P F r data st cs r' -> no_forgery P d bs data ->
  forall k, r = at_ k -> exists k', k <= k' /\ r' = at_ k' /\
    (st <> kOk -> cs = []) /\
    (st = kOk -> k' = k + lenN cs /\ skipn (N.to_nat k) bs = cs ++ skipn (N.to_nat k') bs).
Proof.
  intros F r data st cs r' H. induction H; intros G k ->.
  - exists k. split; [lia|]. split; [reflexivity|]. split; [reflexivity|]. intros _. split; [cbn; lia|reflexivity].
  - exists k. split; [lia|]. split; [reflexivity|]. split; [reflexivity|]. discriminate.
  - destruct (recv_genuine _ _ _ _ _ _ _ _ H (no_forgery_here _ _ G H) H2) as [(N0 & k' & L & E)|(E & _)]; [|contradiction].
    exists k'. split; [exact L|]. split; [exact E|]. split; [reflexivity|]. intros K. apply public_ok in K. contradiction.
  - destruct (recv_genuine _ _ _ _ _ _ _ _ H (no_forgery_here _ _ G H) H2) as [(N0 & _)|(_ & E & b & Eb & Et)]; [contradiction|].
    destruct (IHrecv_all (no_forgery_tail _ _ G) (k + 1) E) as (k' & L & E' & Z & K).
    exists k'. split; [lia|]. split; [exact E'|]. split; [intros Hs; destruct st; try reflexivity; contradiction|].
    intros ->. destruct (K eq_refl) as [K1 K2]. split; [rewrite K1, lenN_cons; unfold bytes in *; lia|].
    rewrite (skipn_nth _ _ _ _ Eb), Et. cbn [app]. f_equal. rewrite <- K2. f_equal. lia.
  - destruct (recv_genuine _ _ _ _ _ _ _ _ H (no_forgery_here _ _ G H) H2) as [(N0 & _)|(_ & E & _)]; [contradiction|].
    subst. discriminate.
Qed.

(* One operation. *)
Lemma step_genuine : forall F s op a s', ref_step P F s op a s' -> no_forgery P d bs (given op) ->
  forall k, f_rx s = at_ k -> exists k', k <= k' /\ f_rx s' = at_ k' /\
    ((contents_of op a = [] /\ (read_ok op a -> k' = k)) \/
     skipn (N.to_nat k) bs = contents_of op a ++ skipn (N.to_nat k') bs).
Proof.
  intros F s op a s' H G k E. inversion H; subst; cbn [given] in G; cbn [f_rx].
  1, 2, 3, 4: exists k; split; [lia|]; split; [exact E|]; left; split; [reflexivity|reflexivity].
  - exists k; split; [lia|]; split; [exact E|]; left; split; reflexivity.
  - rewrite E in *. match goal with K : recv_all _ _ _ _ _ _ _ |- _ => destruct (recv_all_genuine _ _ _ _ _ _ K G k eq_refl) as (k' & L & E' & Z & O) end.
    exists k'. split; [exact L|]. split; [exact E'|].
    assert (D : st = kOk \/ st <> kOk) by (destruct st; try (right; discriminate); left; reflexivity). destruct D as [->|N0].
    + right. exact (proj2 (O eq_refl)).
    + left. split; [cbn [contents_of]; destruct st; try reflexivity; contradiction|]. intros K. cbn in K. contradiction.
  - exists k; split; [lia|]; split; [exact E|]; left; split; reflexivity.
  - exists k; split; [lia|]; split; [exact E|]; left; split; reflexivity.
  - rewrite E in *. match goal with K : iov_concat _ = _ |- _ => rewrite K in G end.
    match goal with L : lenN p < 65536, K : recv _ _ _ _ _ _ _ _ _ _ |- _ => destruct (recv_genuine _ _ _ _ _ _ _ _ L (no_forgery_here _ _ G L) K) as [(N0 & k' & Lk & E')|(-> & E' & b & Eb & Et)] end.
    + exists k'. split; [exact Lk|]. split; [exact E'|]. left.
      assert (N1 : public_code st <> kOk) by (intro K; apply public_ok in K; contradiction).
      split; [cbn [contents_of]; destruct (public_code st); try reflexivity; contradiction|]. intros K. cbn in K. contradiction.
    + exists (k + 1). split; [lia|]. split; [exact E'|]. right. cbn [contents_of public_code app].
      rewrite (skipn_nth _ _ _ _ Eb), Et. do 2 f_equal. lia.
Qed.

Lemma run_genuine : forall s ops as_ s', ref_run P s ops as_ s' -> never_forged P d bs ops ->
  forall k, f_rx s = at_ k -> exists k', f_rx s' = at_ k' /\
    subseq (delivered ops as_) (skipn (N.to_nat k) bs) /\
    (everywhere read_ok ops as_ -> skipn (N.to_nat k) bs = delivered ops as_ ++ skipn (N.to_nat k') bs).
Proof.
  intros s ops as_ s' H. induction H; intros G k E.
  - exists k. split; [exact E|]. split; [apply subseq_nil|reflexivity].
  - inversion G as [|? ? G1 G2]; subst. cbn [fst] in G1.
    destruct (step_genuine _ _ _ _ _ H0 G1 k E) as (k1 & L1 & E1 & K).
    destruct (IHref_run G2 k1 E1) as (k' & E' & S & O). exists k'. split; [exact E'|].
    unfold delivered in *. cbn [collect everywhere]. split.
    + destruct K as [[-> _]| ->].
      * cbn [app]. apply (subseq_skip _ (N.to_nat k1 - N.to_nat k)).
        rewrite skipn_twice. replace (N.to_nat k1 - N.to_nat k + N.to_nat k)%nat with (N.to_nat k1) by lia. exact S.
      * apply subseq_app; [apply subseq_refl|exact S].
    + intros [O1 O2]. specialize (O O2). destruct K as [[-> K]| ->].
      * rewrite <- (K O1). exact O.
      * rewrite O, app_assoc. reflexivity.
  - rewrite E in H. discriminate.
Qed.
End Receive.

Lemma F66 : forall P lib al a ops rs f bs, protector P lib al a ops rs f -> never_forged P (f_in a) bs ops ->
  subseq (delivered ops (map answer_of rs)) bs /\
  (everywhere read_ok ops (map answer_of rs) -> exists later, bs = delivered ops (map answer_of rs) ++ later).
Proof.
  intros P lib al a ops rs f bs Hp G. destruct (protector_ref _ _ _ _ _ _ _ Hp) as (s & R & _).
  assert (E0 : f_rx (ref_start a) = at_ (f_in a) 0).
  { unfold at_, ref_start, dir_adv. cbn [f_rx]. rewrite N.add_0_r. destruct (f_in a); reflexivity. }
  destruct (run_genuine P (f_in a) bs (proj1 Hp) _ _ _ _ R G 0 E0) as (k & _ & S & O).
  split; [exact S|]. intros K. exists (skipn (N.to_nat k) bs). exact (O K).
Qed.

(* ---- the sender ---- *)
Lemma send_ok_dir : forall P F d buf bs st buf' d', send_all P F d buf bs st buf' d' -> st = kOk ->
  d' = dir_adv d (lenN bs).
Proof.
  intros P F d buf bs st buf' d' H. induction H; intros E; try discriminate.
  - unfold dir_adv. change (lenN (@nil bytes)) with 0. rewrite N.add_0_r. destruct d; reflexivity.
  - match goal with K : _ \/ _ |- _ => destruct K; congruence end.
  - rewrite (IHsend_all E), lenN_cons. unfold dir_next, dir_adv. cbn [d_suite d_secret d_seq d_broken]. f_equal. unfold bytes in *. lia.
Qed.

Lemma records_len : forall P bs d, prims_ok P -> lenN (records P d bs) = lenN (concat bs) + 22 * lenN bs.
Proof.
  intros P bs d HP. revert d. induction bs as [|b bs IH]; intro d; [reflexivity|]. cbn [records concat].
  rewrite !lenN_app, IH, lenN_cons. unfold tls_record, tls_ciphertext.
  rewrite lenN_app, lenN_tls_header, lenN_dir_seal, lenN_inner by assumption. unfold bytes in *. lia.
Qed.

Lemma step_sends : forall P F s op a s', prims_ok P -> ref_step P F s op a s' -> write_ok op a ->
  exists b, blocks_in op b /\ wire_of op a = records P (f_tx s) b /\ f_tx s' = dir_adv (f_tx s) (lenN b).
Proof.
  intros P F s op a s' HP H O.
  assert (Z : forall d, d = dir_adv d (lenN (@nil bytes))).
  { intro d. unfold dir_adv. change (lenN (@nil bytes)) with 0. rewrite N.add_0_r. destruct d; reflexivity. }
  inversion H; subst; cbn [write_ok] in O; subst; try contradiction.
  all: try (exists []; split; [reflexivity|]; split; [reflexivity|]; cbn [f_tx]; apply Z).
  all: try (exfalso; match goal with K : send_null _ _ _ _ _ _ kOk _ _ |- _ => exact (null_not_ok _ _ _ _ _ _ _ _ _ K eq_refl) end).
  all: match goal with B : blocks_of _ ?b, K : send_all _ _ _ _ _ _ _ _ |- _ =>
    exists b; split; [exact B|]; cbn [f_tx wire_of];
    pose proof (send_ok_bytes _ _ _ _ _ _ _ _ HP K eq_refl) as Eb; pose proof (send_ok_dir _ _ _ _ _ _ _ _ K eq_refl) as Ed;
    pose proof (blocks_len _ _ B) as Lb; destruct B as [Ec _] end; (split; [|exact Ed]); rewrite Eb.
  - cbn [concat]. rewrite app_nil_r, dropN_all, app_nil_r; [reflexivity|].
    match goal with L : lenN _ = protected_size _ |- _ => rewrite L end. rewrite Ec. unfold protected_size. lia.
  - assert (L : protected_size (lenN (iov_concat input)) = lenN (records P (f_tx s) bs)).
    { rewrite records_len by exact HP. rewrite Ec. unfold protected_size. lia. }
    rewrite L. apply takeN_app_exact.
Qed.

Lemma run_sends : forall P d bs s ops as_ s', prims_ok P -> ref_run P s ops as_ s' -> never_forged P d bs ops ->
  forall k, f_rx s = at_ d k -> everywhere write_ok ops as_ ->
  exists b, sent ops b /\ on_the_wire ops as_ = records P (f_tx s) b.
Proof.
  intros P d bs s ops as_ s' HP H. induction H; intros G k E O.
  - exists []. split; reflexivity.
  - inversion G as [|? ? G1 G2]; subst. cbn [fst] in G1.
    destruct (step_genuine P d bs HP _ _ _ _ _ H0 G1 k E) as (k1 & _ & E1 & _).
    cbn [everywhere] in O. destruct O as [O1 O2].
    destruct (step_sends _ _ _ _ _ _ HP H0 O1) as (b1 & B1 & W1 & D1).
    destruct (IHref_run G2 k1 E1 O2) as (b2 & B2 & W2). exists (b1 ++ b2). split.
    + cbn [sent]. exists b1, b2. auto.
    + unfold on_the_wire in *. cbn [collect]. rewrite W1, W2, records_app, D1. reflexivity.
  - rewrite E in H. discriminate.
Qed.

Lemma F66sent : forall P lib al a ops rs f cs, protector P lib al a ops rs f -> never_forged P (f_in a) cs ops ->
  everywhere write_ok ops (map answer_of rs) ->
  exists bs, sent ops bs /\ on_the_wire ops (map answer_of rs) = records P (f_out a) bs.
Proof.
  intros P lib al a ops rs f cs Hp G O. destruct (protector_ref _ _ _ _ _ _ _ Hp) as (s & R & _).
  assert (E0 : f_rx (ref_start a) = at_ (f_in a) 0).
  { unfold at_, ref_start, dir_adv. cbn [f_rx]. rewrite N.add_0_r. destruct (f_in a); reflexivity. }
  exact (run_sends P (f_in a) cs _ _ _ _ (proj1 Hp) R G 0 E0 O).
Qed.

Lemma sent_written : forall ops bs, sent ops bs -> concat bs = written ops.
Proof.
  induction ops as [|[op fs] ops IH]; intros bs H; [cbn in H; subst; reflexivity|].
  destruct H as (b1 & b2 & -> & B & S). unfold written in *. cbn [map concat fst]. rewrite concat_app, (IH _ S). f_equal.
  destruct op; cbn [blocks_in data_of] in *; try (subst; reflexivity); exact (proj1 B).
Qed.

Lemma sent_unique : forall ops bs bs', sent ops bs -> sent ops bs' -> bs = bs'.
Proof.
  induction ops as [|[op fs] ops IH]; intros bs bs' H H'; [cbn in *; congruence|].
  destruct H as (b1 & b2 & -> & B & S), H' as (b1' & b2' & -> & B' & S'). rewrite (IH _ _ S S'). f_equal.
  destruct op; cbn [blocks_in] in *; try congruence; exact (blocks_unique _ _ _ B B').
Qed.

(* Both sides. *)
Lemma F66both : forall P liba libb ala alb aa ab opsa opsb rsa rsb f g sa sb,
  protector P liba ala aa opsa rsa f -> protector P libb alb ab opsb rsb g ->
  f_out aa = f_in ab -> f_out ab = f_in aa -> sent opsa sa -> sent opsb sb ->
  never_forged P (f_in ab) sa opsb -> never_forged P (f_in aa) sb opsa ->
  everywhere write_ok opsa (map answer_of rsa) ->
  on_the_wire opsa (map answer_of rsa) = records P (f_in ab) sa /\ concat sa = written opsa /\
  subseq (delivered opsb (map answer_of rsb)) sa /\
  (everywhere read_ok opsb (map answer_of rsb) ->
     exists later, written opsa = concat (delivered opsb (map answer_of rsb)) ++ later).
Proof.
  intros P liba libb ala alb aa ab opsa opsb rsa rsb f g sa sb Ha Hb E E' Sa Sb Ga Gb O.
  destruct (F66sent _ _ _ _ _ _ _ _ Ha Gb O) as (bs & S & W). rewrite (sent_unique _ _ _ S Sa) in W.
  destruct (F66 _ _ _ _ _ _ _ _ Hb Ga) as [K1 K2].
  split; [rewrite W, E; reflexivity|]. split; [exact (sent_written _ _ Sa)|]. split; [exact K1|].
  intros R. destruct (K2 R) as (later & Es). exists (concat later). rewrite <- (sent_written _ _ Sa), Es, concat_app. reflexivity.
Qed.

(* ---- losing records ---- *)
Lemma skip_run : forall P (d : dir) k b r, prims_ok P -> lenN b <= 16384 -> d_broken d = false -> d_seq d + k < two64 ->
  r = tls_record P (dir_adv d k) ty_application_data b 0 ->
  (forall i msg, i < k -> r <> tls_ciphertext P (dir_adv d i) msg) ->
  forall m j tx, j + N.of_nat m = k -> exists s,
  ref_run P {| f_tx := tx; f_rx := at_ d j |} (repeat (FUnprotect [IoBuf r], []) (S m))
    (repeat (ABuffers kInternal []) m ++ [ABuffers kOk [b]]) s /\ r_bad (f_rx s) = false.
Proof.
  intros P d k b r HP Hb Hd Hs Er Hn.
  set (msg := inner ty_application_data b 0) in *.
  assert (Lm : lenN msg = lenN b + 1) by (unfold msg; rewrite lenN_inner; lia).
  set (p := dir_seal P (dir_adv d k) (tls_header (lenN msg + 16)) msg).
  assert (Lp : lenN p = lenN msg + 16) by (unfold p; rewrite lenN_dir_seal by exact HP; reflexivity).
  assert (Ef : r = framed p ++ []).
  { rewrite Er, app_nil_r. unfold framed. rewrite Lp. reflexivity. }
  assert (Wf : well_formed (tls_header (lenN p)) (lenN p)) by (split; [reflexivity|lia]).
  assert (Lr : 22 <= lenN (framed p ++ [])).
  { unfold framed. rewrite !lenN_app, lenN_tls_header. lia. }
  assert (Ei : iov_concat [IoBuf r] = framed p ++ []) by (rewrite <- Ef; cbn; apply app_nil_r).
  induction m as [|m IH]; intros j tx Ej.
  - assert (j = k) as -> by lia. eexists. split.
    + cbn [repeat app]. eapply RunStep; [reflexivity| |apply RunNil].
      apply RsUnprotect; [rewrite Ei; exact Lr|]. rewrite Ei. cbn [f_rx].
      assert (Eb : b = takeN (lenN b) (msg ++ dropN (lenN msg) (zeros (lenN p)))).
      { unfold msg, inner. rewrite <- !app_assoc. symmetry. apply takeN_app_exact. }
      rewrite Eb at 1.
      refine (RaNext P _ (at_ d k) p [] (zeros (lenN p)) (lenN b) _ _ kOk [] _ _ Lr _ _ _ _).
      * lia.
      * apply lenN_zeros.
      * refine (RvRecord P _ (at_ d k) _ p _ msg S_OK (lenN b) _ _ eq_refl Wf _ _ _ _).
        -- split; [exact Hd|exact Hs].
        -- unfold p at 1. rewrite Lp. reflexivity.
        -- rewrite lenN_zeros. lia.
        -- refine (AcData P _ _ _ _ b 0 eq_refl _). reflexivity.
      * reflexivity.
      * apply RaEnd. reflexivity.
    + reflexivity.
  - destruct (IH (j + 1) tx) as (s & R & B); [lia|]. exists s. split; [|exact B].
    cbn [repeat app]. eapply RunStep; [reflexivity| |exact R].
    apply (RsUnprotect P _ {| f_tx := tx; f_rx := at_ d j |}); [rewrite Ei; exact Lr|]. rewrite Ei. cbn [f_rx].
    refine (RaFail P _ (at_ d j) p [] (zeros (lenN p)) S_INTERNAL_ERROR 0 (zeros (lenN (zeros (lenN p)))) (at_ d (j + 1)) _ Lr _ _ _).
    + lia.
    + apply lenN_zeros.
    + assert (Ed : at_ d (j + 1) = rx_dir (at_ d j) (dir_next (r_dir (at_ d j)))).
      { unfold at_, rx_dir, rx_start. cbn [r_dir]. rewrite adv_next. reflexivity. }
      rewrite Ed. apply RvReject; [reflexivity|exact Wf| |].
      * split; [exact Hd|]. cbn. lia.
      * right. intros m0 Em. exfalso. apply (Hn j m0); [lia|]. rewrite Ef, app_nil_r. unfold framed, tls_ciphertext.
        cbn [at_ r_dir rx_start] in Em.
        assert (L0 : lenN p = lenN m0 + 16) by (rewrite Em at 1; apply lenN_dir_seal; exact HP).
        rewrite <- L0, <- Em. reflexivity.
    + discriminate.
Qed.

Lemma F66skip : forall P lib al a k b r rs f,
  r = tls_record P (dir_adv (f_in a) k) ty_application_data b 0 -> lenN b <= 16384 ->
  d_seq (f_in a) + k < two64 -> (forall i msg, i < k -> r <> tls_ciphertext P (dir_adv (f_in a) i) msg) ->
  protector P lib al a (repeat (FUnprotect [IoBuf r], []) (N.to_nat k + 1)) rs f ->
  map answer_of rs = repeat (ABuffers kInternal []) (N.to_nat k) ++ [ABuffers kOk [b]].
Proof.
  intros P lib al a k b r rs f Er Lb Hs Hn Hp. rewrite Nat.add_1_r in Hp.
  destruct (skip_run P (f_in a) k b r (proj1 Hp) Lb eq_refl Hs Er Hn (N.to_nat k) 0 (f_out a)) as (s & R & B); [lia|].
  apply (F65det _ _ _ _ _ _ _ _ s Hp).
  - unfold no_failures. clear. induction (S (N.to_nat k)); constructor; auto.
  - replace (ref_start a) with {| f_tx := f_out a; f_rx := at_ (f_in a) 0 |}; [exact R|].
    unfold at_, ref_start, dir_adv. rewrite N.add_0_r. destruct (f_in a); reflexivity.
  - exact B.
Qed.

(* A genuine record is accepted. *)
Lemma recv_data : forall P (d : dir) k b rest st cs r', prims_ok P -> lenN b <= 16384 -> d_broken d = false -> d_seq d + k < two64 ->
  recv_all P ([] <> @nil bool) (at_ d (k + 1)) rest st cs r' ->
  recv_all P ([] <> @nil bool) (at_ d k) (tls_record P (dir_adv d k) ty_application_data b 0 ++ rest) st
    (match st with kOk => b :: cs | _ => [] end) r'.
Proof.
  intros P d k b rest st cs r' HP Hb Hd Hs H.
  set (msg := inner ty_application_data b 0) in *.
  assert (Lm : lenN msg = lenN b + 1) by (unfold msg; rewrite lenN_inner; lia).
  set (p := dir_seal P (dir_adv d k) (tls_header (lenN msg + 16)) msg).
  assert (Lp : lenN p = lenN msg + 16) by (unfold p; rewrite lenN_dir_seal by exact HP; reflexivity).
  assert (Ef : tls_record P (dir_adv d k) ty_application_data b 0 = framed p).
  { unfold framed. rewrite Lp. reflexivity. }
  assert (Wf : well_formed (tls_header (lenN p)) (lenN p)) by (split; [reflexivity|lia]).
  assert (Eb : b = takeN (lenN b) (msg ++ dropN (lenN msg) (zeros (lenN p)))).
  { unfold msg, inner. rewrite <- !app_assoc. symmetry. apply takeN_app_exact. }
  rewrite Ef, Eb.
  refine (RaNext P _ (at_ d k) p rest (zeros (lenN p)) (lenN b) _ (at_ d (k + 1)) st cs _ _ _ _ _ _ H).
  - lia.
  - unfold framed. rewrite !lenN_app, lenN_tls_header. lia.
  - apply lenN_zeros.
  - assert (Ed : at_ d (k + 1) = rx_data (rx_dir (at_ d k) (dir_next (r_dir (at_ d k))))).
    { unfold at_, rx_data, rx_dir, rx_start. cbn. rewrite adv_next. reflexivity. }
    rewrite Ed. refine (RvRecord P _ (at_ d k) _ p _ msg S_OK (lenN b) _ _ eq_refl Wf _ _ _ _).
    + split; [exact Hd|exact Hs].
    + unfold p at 1. rewrite Lp. reflexivity.
    + rewrite lenN_zeros. lia.
    + refine (AcData P _ _ _ _ b 0 eq_refl _). reflexivity.
  - reflexivity.
Qed.

Lemma F66junk : forall P lib al a b0 b1 junk rs f, lenN b0 <= 16384 -> lenN b1 <= 16384 -> d_seq (f_in a) + 1 < two64 ->
  22 <= lenN junk -> ~ starts_with_record junk ->
  protector P lib al a
    [(FUnprotect [IoBuf (tls_record P (f_in a) ty_application_data b0 0 ++ junk)], []);
     (FUnprotect [IoBuf (tls_record P (dir_next (f_in a)) ty_application_data b1 0)], [])] rs f ->
  map answer_of rs = [ABuffers kFailedPrecondition []; ABuffers kOk [b1]].
Proof.
  intros P lib al a b0 b1 junk rs f L0 L1 Hs Lj Hj Hp. pose proof (proj1 Hp) as HP.
  assert (E0 : dir_adv (f_in a) 0 = f_in a) by (unfold dir_adv; rewrite N.add_0_r; reflexivity).
  assert (E1 : dir_adv (f_in a) 1 = dir_next (f_in a)) by reflexivity.
  assert (Lr : forall d b, 22 <= lenN (tls_record P d ty_application_data b 0)).
  { intros d b. unfold tls_record, tls_ciphertext. rewrite lenN_app, lenN_tls_header, lenN_dir_seal, lenN_inner by exact HP. lia. }
  eapply F65det with (s := {| f_tx := f_out a; f_rx := at_ (f_in a) 2 |}); [exact Hp|repeat constructor| |reflexivity].
  eapply RunStep with (s1 := {| f_tx := f_out a; f_rx := at_ (f_in a) 1 |}); [reflexivity| |eapply RunStep; [reflexivity| |apply RunNil]].
  - apply RsUnprotect; unfold iov_concat; cbn [flat_map iov_data]; rewrite app_nil_r.
    + rewrite lenN_app. lia.
    + cbn [f_rx ref_start]. rewrite <- E0 at 1 2. change (rx_start (dir_adv (f_in a) 0)) with (at_ (f_in a) 0).
      refine (recv_data P (f_in a) 0 b0 junk kFailedPrecondition [] _ HP L0 eq_refl _ _); [lia|].
      apply RaNone; assumption.
  - refine (RsUnprotect P _ {| f_tx := f_out a; f_rx := at_ (f_in a) 1 |} _ _ _ _ _ _); unfold iov_concat; cbn [flat_map iov_data]; rewrite app_nil_r.
    + apply Lr.
    + rewrite <- E1, <- (app_nil_r (tls_record _ _ _ _ _)).
      refine (recv_data P (f_in a) 1 b1 [] kOk [] _ HP L1 eq_refl Hs _). apply RaEnd. reflexivity.
Qed.
