From Coq Require Import List NArith ZArith Bool Lia ZifyBool ZifyNat ZifyN.
From Verif Require Import Base BaseProofs Aead Hkdf HalfConn SpecAead AeadProofs SpecTls
  HalfProofs Options HsHandler Crypter SpecHs HsProofs SpecRecord CrypterProofs SpecRx CrypterRun.
Import ListNotations.
Local Open Scope N_scope.

Lemma app_inv_len : forall (A : Type) (a b c d : list A), length a = length c -> a ++ b = c ++ d ->
  a = c /\ b = d.
Proof.
  induction a as [|x a IH]; intros b [|y c] d L E; try discriminate; [auto|].
  cbn in *. inversion E; subst. destruct (IH b c d) as [-> ->]; auto.
Qed.

(* Handshake messages form a prefix code. *)
Lemma hs_prefix : forall m m' r r', hs_msg m -> hs_msg m' -> m ++ r = m' ++ r' -> m = m' /\ r = r'.
Proof.
  intros m m' r r' (t & a & b & c & body & -> & _ & L & _) (t' & a' & b' & c' & body' & -> & _ & L' & _) E.
  cbn [app] in E. injection E. intros K <- <- <- <-.
  assert (Hl : length body = length body') by (unfold lenN in *; lia).
  destruct (app_inv_len _ _ _ _ _ Hl K) as [-> ->]. auto.
Qed.

Lemma concat_cons' : forall (m : bytes) ms, concat (m :: ms) = m ++ concat ms.
Proof. reflexivity. Qed.

Lemma parse_unique : forall ms part ms' part',
  concat ms ++ part = concat ms' ++ part' -> Forall hs_msg ms -> Forall hs_msg ms' ->
  hs_partial part -> hs_partial part' -> ms = ms' /\ part = part'.
Proof.
  induction ms as [|m ms IH]; intros part ms' part' E Hm Hm' Hp Hp'.
  - destruct (partial_no_msg part ms' part' Hp E Hm') as [-> ->]. auto.
  - inversion Hm as [|? ? M1 M2]; subst. destruct ms' as [|m' ms'].
    + symmetry in E. destruct (partial_no_msg part' (m :: ms) part Hp' E Hm) as [K _]. discriminate.
    + inversion Hm' as [|? ? M1' M2']; subst.
      rewrite !concat_cons', <- !app_assoc in E.
      destruct (hs_prefix _ _ _ _ M1 M1' E) as [-> E2].
      destruct (IH _ _ _ E2 M2 M2' Hp Hp') as [-> ->]. auto.
Qed.

Lemma partial_not_zero : forall z rest, hs_zero z -> hs_partial (z ++ rest) -> False.
Proof.
  intros z rest (t & ->) (r & _ & (t' & a & b & c & body & E & _ & L & Hne)).
  cbn in E. inversion E; subst. apply Hne. unfold lenN in L. rewrite app_length in *.
  destruct (rest ++ r) eqn:K; [reflexivity|]. apply (f_equal (@length N)) in K. rewrite app_length in K. cbn in K. lia.
Qed.

Lemma msg_not_zero : forall z rest m r, hs_zero z -> hs_msg m -> z ++ rest = m ++ r -> False.
Proof.
  intros z rest m r (t & ->) (t' & a & b & c & body & -> & _ & L & Hne) E.
  cbn in E. inversion E; subst. apply Hne. unfold lenN in L. destruct body; [reflexivity|cbn in L; lia].
Qed.

Lemma known_app : forall m r, m <> [] -> known (m ++ r) -> known m.
Proof.
  intros m r Hne [K|K]; [left; rewrite is_ticket_app in K by exact Hne; exact K|
    right; rewrite is_key_update_app in K by exact Hne; exact K].
Qed.
Lemma known_ext : forall m r, m <> [] -> known m -> known (m ++ r).
Proof.
  intros m r Hne [K|K]; [left; rewrite is_ticket_app by exact Hne; exact K|
    right; rewrite is_key_update_app by exact Hne; exact K].
Qed.

Lemma not_malformed : forall ms part, Forall hs_msg ms -> Forall known ms -> hs_partial part ->
  (part <> [] -> known part) -> key_update_last ms part -> ~ malformed (concat ms ++ part).
Proof.
  intros ms part Hm Hk Hp Hkp Hku (ms' & m' & rest & E & Hm' & Hk' & Hbad).
  revert ms Hm Hk Hku E. induction ms' as [|y ms' IH]; intros ms Hm Hk Hku E.
  - cbn [concat app] in E. destruct ms as [|m ms].
    + cbn [concat app] in E. subst part. destruct Hbad as [Hz|[[Hne Hu]|(Hmm & _ & _)]].
      * eapply partial_not_zero; eauto.
      * apply Hu. apply (known_app m' rest Hne). apply Hkp. apply app_ne_l. exact Hne.
      * assert (Hs : m' ++ rest = concat [m'] ++ rest) by (cbn; rewrite app_nil_r; reflexivity).
        destruct (partial_no_msg _ [m'] rest Hp Hs) as [K _]; [constructor; auto|discriminate].
    + inversion Hm as [|? ? M1 M2]; subst. inversion Hk as [|? ? K1 K2]; subst.
      rewrite concat_cons', <- app_assoc in E.
      destruct Hbad as [Hz|[[Hne Hu]|(Hmm & Hkk & Hr)]].
      * eapply msg_not_zero; [exact Hz|exact M1|symmetry; exact E].
      * apply Hu. apply (known_app m' rest Hne). rewrite <- E. apply known_ext; [apply hs_msg_ne; exact M1|exact K1].
      * destruct (hs_prefix _ _ _ _ M1 Hmm E) as [-> E2]. cbn in Hku. destruct Hku as [Hl _].
        destruct (Hl Hkk) as [-> ->]. cbn in E2. congruence.
  - inversion Hm' as [|? ? M1' M2']; subst. inversion Hk' as [|? ? K1' K2']; subst.
    destruct ms as [|m ms].
    + cbn [concat app] in E. assert (Hs : part = concat (y :: ms') ++ (m' ++ rest)) by (rewrite E; reflexivity).
      destruct (partial_no_msg _ _ _ Hp Hs Hm') as [K _]. discriminate.
    + inversion Hm as [|? ? M1 M2]; subst. inversion Hk as [|? ? K1 K2]; subst.
      rewrite !concat_cons', <- !app_assoc in E.
      destruct (hs_prefix _ _ _ _ M1 M1' E) as [-> E2].
      cbn in Hku. destruct Hku as [_ Hku]. apply (IH M2' K2' ms M2 K2 Hku E2).
Qed.

(* Where a malformed stream breaks is unique. *)
Definition breaks (m rest : bytes) : Prop :=
  (m <> [] /\ ~ known m) \/ (hs_msg m /\ is_key_update m = true /\ rest <> []) \/ (hs_zero m /\ known m).

Lemma breaks_not_ticket : forall m rest y r, breaks m rest -> hs_msg y -> is_ticket y = true ->
  m ++ rest = y ++ r -> False.
Proof.
  intros m rest y r H My Ty E.
  assert (Hf : m <> [] -> is_ticket m = true).
  { intros Hne. destruct m as [|b m]; [contradiction|]. destruct y as [|b' y]; [discriminate|].
    cbn [app] in E. inversion E; subst. exact Ty. }
  destruct H as [[Hne Hu]|[(Hm & Hk & _)|[Hz _]]].
  - apply Hu. left. auto.
  - specialize (Hf (hs_msg_ne _ Hm)). destruct m; [discriminate|]. unfold is_ticket, is_key_update, has_type in *. lia.
  - eapply msg_not_zero; eauto.
Qed.

Lemma breaks_unique : forall ms m rest ms' m' rest',
  concat ms ++ m ++ rest = concat ms' ++ m' ++ rest' ->
  Forall hs_msg ms -> Forall hs_msg ms' ->
  Forall (fun m => is_ticket m = true) ms -> Forall (fun m => is_ticket m = true) ms' ->
  breaks m rest -> breaks m' rest' -> ms = ms'.
Proof.
  induction ms as [|y ms IH]; intros m rest ms' m' rest' E M M' T T' B B'; destruct ms' as [|y' ms']; [reflexivity|..].
  - inversion M'; inversion T'; subst. exfalso. rewrite concat_cons', <- app_assoc in E. cbn [concat app] in E.
    eapply breaks_not_ticket; [exact B| | |exact E]; assumption.
  - inversion M; inversion T; subst. exfalso. rewrite concat_cons', <- app_assoc in E. cbn [concat app] in E.
    eapply breaks_not_ticket; [exact B'| | |symmetry; exact E]; assumption.
  - inversion M; inversion T; inversion M'; inversion T'; subst.
    rewrite !concat_cons', <- !app_assoc in E.
    destruct (hs_prefix y y' _ _ ltac:(assumption) ltac:(assumption) E) as [-> E2]. f_equal. eapply IH; eauto.
Qed.

Lemma breaks_malformed : forall s ms m rest, s = concat ms ++ m ++ rest -> Forall hs_msg ms ->
  Forall (fun m => is_ticket m = true) ms -> breaks m rest -> malformed s.
Proof.
  intros s ms m rest E M T B. exists ms, m, rest. split; [exact E|]. split; [exact M|].
  split; [eapply Forall_impl; [|exact T]; intros; left; assumption|]. unfold breaks in B. tauto.
Qed.

Lemma inner_inj : forall ty c p ty' c' p', inner ty c p = inner ty' c' p' -> ty <> 0 -> ty' <> 0 ->
  ty = ty' /\ c = c' /\ p = p'.
Proof.
  intros ty c p ty' c' p' E H H'.
  pose proof (scan_type_inner ty c p H) as A. pose proof (scan_type_inner ty' c' p' H') as B.
  rewrite E in A. rewrite A in B. inversion B; subst. split; [reflexivity|]. split; [reflexivity|].
  apply (f_equal lenN) in E. rewrite !lenN_inner in E. lia.
Qed.

Lemma inner_not_zero : forall ty c p, ty <> 0 -> inner ty c p <> zeros (lenN (inner ty c p)).
Proof.
  intros ty c p H E. apply scan_type_none in E. rewrite scan_type_inner in E by exact H. discriminate.
Qed.

Lemma inner_prefix_not_zero : forall ty c p r n, ty <> 0 -> inner ty c p ++ r <> zeros n.
Proof.
  intros ty c p r n H E.
  assert (In ty (zeros n)) as Hi.
  { rewrite <- E. apply in_or_app. left. unfold inner. apply in_or_app. right. left. reflexivity. }
  unfold zeros in Hi. apply repeat_spec in Hi. contradiction.
Qed.

Lemma dir_seal_inj : forall P d aad m m', prims_ok P ->
  dir_seal P d aad m = dir_seal P d aad m' -> m = m'.
Proof.
  intros P d aad m m' HP E. unfold dir_seal, seal in E. cbv zeta in E.
  match type of E with stream ?p ?al ?k ?n m ++ _ = _ => set (A := al) in *; set (K := k) in *; set (N0 := n) in * end.
  assert (L : length (stream P A K N0 m) = length (stream P A K N0 m')).
  { apply (f_equal lenN) in E. rewrite !lenN_app, !(mac_len P HP) in E. unfold lenN in E. lia. }
  destruct (app_inv_len _ _ _ _ _ L E) as [E1 _].
  rewrite <- (stream_involutive P A K N0 m), <- (stream_involutive P A K N0 m'), E1. reflexivity.
Qed.

Ltac inj_inner :=
  repeat match goal with
  | K : inner ?a _ _ = inner ?b _ _ |- _ =>
    apply inner_inj in K; [|try discriminate; try assumption|try discriminate; try assumption]; destruct K as (? & ? & ?); subst
  end.

Lemma accept_det : forall P F r msg out st n out' r1 r2,
  accept P F r msg out st n out' r1 -> accept P F r msg out st n out' r2 -> r1 = r2.
Proof.
  assert (Hty : ty_alert <> 0 /\ ty_handshake <> 0 /\ ty_application_data <> 0) by (repeat split; discriminate).
  destruct Hty as (T1 & T2 & T3).
  intros P F r msg out st n out' r1 r2 H1 H2.
  inversion H1; subst; inversion H2; subst; try reflexivity; try congruence; try discriminate;
    repeat match goal with
    | K : inner _ _ _ = zeros _ |- _ => exfalso; revert K; apply inner_not_zero; assumption
    | K : zeros _ = inner _ _ _ |- _ => exfalso
    | K : inner _ _ _ = inner _ _ _ |- _ =>
      apply inner_inj in K; [|assumption|assumption]; destruct K as (? & ? & ?); subst
    end; try discriminate; try congruence.
  all: repeat match goal with
    | A : r_part ?q ++ ?c = concat ?ms ++ ?m ++ ?rest, B : ?m <> [] /\ ~ known ?m \/ hs_msg ?m /\ _ |- _ =>
      assert (breaks m rest) by (unfold breaks; tauto); clear B
    | A : r_part ?q ++ ?c = concat ?ms ++ ?m ++ ?rest, B : hs_zero ?m, C : known ?m |- _ =>
      assert (breaks m rest) by (unfold breaks; tauto); clear B C
    end.
  all: try match goal with
    | A : r_part ?q ++ ?c = concat ?ms ++ ?m ++ ?rest, B : r_part ?q ++ ?c = concat ?ms' ++ ?m' ++ ?rest',
      C : breaks ?m ?rest, D : breaks ?m' ?rest' |- rx_bad _ ?ms = rx_bad _ ?ms' =>
      let E := fresh in assert (E : ms = ms') by (eapply breaks_unique; [rewrite <- A, <- B; reflexivity|assumption..]);
      rewrite E; reflexivity
    | A : r_part ?q ++ ?c = concat ?ms ++ ?m ++ ?rest, C : breaks ?m ?rest |- _ =>
      assert (malformed (r_part q ++ c)) by (eapply breaks_malformed; [exact A|assumption..])
    end.
  all: try match goal with
    | A : r_part ?q ++ ?c = concat ?ms ++ ?part, B : r_part ?q ++ ?c = concat ?ms' ++ ?part' |- _ =>
      let E := fresh in assert (E : concat ms ++ part = concat ms' ++ part') by congruence;
      apply parse_unique in E; [|assumption..]; destruct E as [-> ->]; reflexivity
    | A : r_part ?q ++ ?c = concat ?ms ++ ?part, B : malformed (r_part ?q ++ ?c) |- _ =>
      exfalso; rewrite A in B; revert B; apply not_malformed; assumption
    end.
Qed.

Lemma recv_det : forall P F r hdr pl out st n out' r1 r2, prims_ok P ->
  recv P F r hdr pl out st n out' r1 -> recv P F r hdr pl out st n out' r2 -> r1 = r2.
Proof.
  intros P F r hdr pl out st n out' r1 r2 HP H1 H2.
  assert (Hx : forall msg st0 n0 out0 r0, 
    accept P F (rx_dir r (dir_next (r_dir r))) msg (msg ++ dropN (lenN msg) out) st0 n0 out0 r0 ->
    st0 = S_INTERNAL_ERROR -> out0 = zeros (lenN out) -> False).
  { intros msg st0 n0 out0 r0 Ha -> ->. inversion Ha; subst;
      eapply (inner_prefix_not_zero ty_handshake); try eassumption; discriminate. }
  inversion H1; subst; inversion H2; subst; try reflexivity; try congruence; try contradiction;
    try (exfalso; eapply Hx; eauto; fail).
  - match goal with A : dir_seal _ _ _ ?m = dir_seal _ _ _ ?m' |- _ =>
      apply dir_seal_inj in A; [subst|exact HP] end.
    eapply accept_det; eauto.
Qed.

Lemma rx_run_det : forall P ops r rs r1 r2, prims_ok P ->
  rx_run P r ops rs r1 -> rx_run P r ops rs r2 -> r1 = r2.
Proof.
  intros P ops r rs r1 r2 HP H1. revert r2.
  induction H1; intros r2 Hr2; inversion Hr2; subst; try reflexivity; try congruence; try discriminate.
  - match goal with A : recv _ _ _ _ _ _ _ _ _ ?a, B : recv _ _ _ _ _ _ _ _ _ ?b |- _ =>
      assert (a = b) by (eapply recv_det; eauto); subst end. auto.
  - auto.
Qed.

Lemma rx_run_length : forall P r ops rs r', rx_run P r ops rs r' -> r_bad r' = false ->
  length rs = length ops.
Proof.
  intros P r ops rs r' H. induction H; intros Hb; cbn [length]; try (f_equal; auto; fail); auto. congruence.
Qed.

Lemma rx_run_app : forall P r ops rs r1, rx_run P r ops rs r1 -> r_bad r1 = false ->
  forall ops2 rs2 r2, rx_run P r1 ops2 rs2 r2 -> rx_run P r (ops ++ ops2) (rs ++ rs2) r2.
Proof.
  intros P r ops rs r1 H. induction H; intros Hb ops2 rs2 r2 K; cbn [app].
  - exact K.
  - eapply RrRecv; eauto.
  - eapply RrOther; eauto.
  - congruence.
Qed.

Lemma rx_run_snoc : forall P r ops rs r1 hdr payload buf fs st n out r2,
  rx_run P r ops rs r1 -> r_bad r1 = false ->
  recv P (fs <> []) r1 hdr (iov_concat payload) buf st n (iov_data out) r2 ->
  rx_run P r (ops ++ [(CUnprotect hdr payload buf, fs)]) (rs ++ [CUnprotected st n out]) r2.
Proof.
  intros. eapply rx_run_app; eauto. eapply RrRecv; eauto. constructor.
Qed.

(* Application data inside a handshake message is let through only if the last
   handshake record was the one with which the fifth ticket was complete. *)
Definition not_done (r : rx) : Prop :=
  d_broken (r_dir r) = false -> r_done r = false -> lenN (tickets_of (r_msgs r)) < 5.

Lemma read_not_done : forall r d ms part, not_done (rx_read r d ms part).
Proof.
  intros r d ms part _ Hd. cbn [rx_read r_done r_msgs] in *.
  destruct (r_done r); [discriminate|]. cbn [negb andb orb] in Hd.
  destruct (N.leb_spec 5 (lenN (tickets_of (r_msgs r ++ ms)))); [discriminate|assumption].
Qed.

Lemma recv_not_done : forall P F r hdr pl out st n out' r', recv P F r hdr pl out st n out' r' ->
  not_done r -> r_bad r' = false -> not_done r'.
Proof.
  intros P F r hdr pl out st n out' r' H J Hb. inversion H; subst; try exact J.
  match goal with K : accept _ _ _ _ _ _ _ _ _ |- _ => inversion K; subst end; try exact J; try discriminate.
  - intros Hbr Hd. apply J; [exact Hbr|]. cbn [rx_data r_done] in Hd. apply orb_false_elim in Hd. apply Hd.
  - apply read_not_done.
Qed.

Lemma wait_exception : forall P r0 ops rs r, rx_run P r0 ops rs r -> r_bad r = false -> not_done r0 ->
  r_part r <> [] -> r_wait r = false ->
  (r_part r0 = r_part r /\ r_msgs r0 = r_msgs r /\ r_wait r0 = false) \/
  exists ops1 op ops2 rs1 re rs2 r1 r2, ops = ops1 ++ op :: ops2 /\ rs = rs1 ++ re :: rs2 /\
    rx_run P r0 ops1 rs1 r1 /\ r_bad r1 = false /\ rx_run P r1 [op] [re] r2 /\ r_bad r2 = false /\
    lenN (tickets_of (r_msgs r1)) < 5 <= lenN (tickets_of (r_msgs r2)) /\
    r_msgs r2 = r_msgs r /\ r_part r2 = r_part r.
Proof.
  intros P r0 ops rs r H.
  induction H as [r|r hdr payload buf fs st n out r' ops rs r'' Hbad Hrv Hrun IH|r op fs res ops rs r'' Hbad Ho Hor Hrun IH|r ops rs Hbad];
    intros Hb J Hp Hw.
  - left. auto.
  - assert (Hb1 : r_bad r' = false).
    { destruct (r_bad r') eqn:E; [|reflexivity]. inversion Hrun; subst; congruence. }
    specialize (IH Hb (recv_not_done _ _ _ _ _ _ _ _ _ _ Hrv J Hb1) Hp Hw).
    destruct IH as [(E1 & E2 & E3)|(ops1 & op & ops2 & rs1 & re & rs2 & r1 & r2 & E1 & E2 & E3 & E4)].
    + assert (Hone : rx_run P r [(CUnprotect hdr payload buf, fs)] [CUnprotected st n out] r')
        by (eapply RrRecv; eauto; constructor).
      inversion Hrv; subst; try (left; auto; fail).
      match goal with K : accept _ _ _ _ _ _ _ _ _ |- _ => inversion K; subst; clear K end; try (left; auto; fail).
      * right. match goal with K : rx_run P r [?o] [?q] ?rr |- _ => exists [], o, ops, [], q, rs, r, rr end.
        cbn [app]. do 2 (split; [reflexivity|]). split; [constructor|]. split; [exact Hbad|]. split; [exact Hone|].
        split; [exact Hb1|]. split; [|auto].
        cbn [rx_read r_wait r_part rx_dir r_done r_msgs] in *.
        destruct (negb (r_done r) && (5 <=? lenN (tickets_of (r_msgs r ++ ms)))) eqn:Ef.
        -- apply andb_prop in Ef. destruct Ef as [Ef1 Ef2]. split; [|lia].
           apply J; [|destruct (r_done r); [discriminate|reflexivity]].
           match goal with K : dir_usable _ |- _ => apply K end.
        -- destruct part; [|discriminate]. congruence.
      * exfalso. cbn [rx_fail r_wait r_part] in *. destruct part; [congruence|discriminate].
      * discriminate.
      * discriminate.
    + right. exists ((CUnprotect hdr payload buf, fs) :: ops1), op, ops2, (CUnprotected st n out :: rs1), re, rs2, r1, r2.
      rewrite E1, E2. cbn [app]. do 2 (split; [reflexivity|]). split; [eapply RrRecv; eauto|exact E4].
  - destruct (IH Hb J Hp Hw) as [K|(ops1 & op' & ops2 & rs1 & re & rs2 & r1 & r2 & E1 & E2 & E3 & E4)]; [left; exact K|].
    right. exists ((op, fs) :: ops1), op', ops2, (res :: rs1), re, rs2, r1, r2.
    rewrite E1, E2. cbn [app]. do 2 (split; [reflexivity|]). split; [eapply RrOther; eauto|exact E4].
  - congruence.
Qed.
