(* Lemmas about HsHandler.v. *)
From Coq Require Import List Arith NArith ZArith Bool Lia ZifyBool ZifyNat ZifyN.
From Verif Require Import Base BaseProofs HsHandler SpecHs.
Import ListNotations.
Local Open Scope N_scope.

(* ------------------------------------------------------------------ *)
(* The 24-bit length *)

Lemma lor_shift_add : forall a b k, b < 2 ^ k ->
  N.lor (N.shiftl a k) b = N.shiftl a k + b.
Proof.
  intros a b k Hb.
  assert (Hl : N.land (N.shiftl a k) b = 0).
  { apply N.bits_inj; intros i. rewrite N.land_spec, N.bits_0.
    destruct (N.lt_ge_cases i k) as [H|H].
    - rewrite N.shiftl_spec_low by exact H. reflexivity.
    - assert (N.testbit b i = false) as ->; [|apply andb_false_r].
      destruct (N.eq_dec b 0) as [->|Hz]; [apply N.bits_0|].
      apply N.bits_above_log2. apply N.log2_lt_pow2 in Hb; lia. }
  rewrite <- N.lxor_lor by exact Hl. symmetry. apply N.add_nocarry_lxor. exact Hl.
Qed.

(* Reference for the size computation on the concatenated bytes. *)
Fixpoint ds (l : bytes) (at_byte acc : N) : N :=
  match l with
  | [] => acc
  | b :: r =>
    if at_byte =? 1 then ds r 2 acc
    else ds r (at_byte + 1) (N.lor acc (N.shiftl b (8 * (4 - at_byte))))
  end.

Definition shift_of (at_byte : N) : Z :=
  if at_byte =? 1 then 16%Z else (8 * (4 - Z.of_N at_byte))%Z.

Lemma data_size_fragment_spec : forall f at_byte acc,
  1 <= at_byte -> at_byte + lenN f <= 5 ->
  data_size_fragment f at_byte (shift_of at_byte) acc =
  Done (at_byte + lenN f, shift_of (at_byte + lenN f), ds f at_byte acc).
Proof.
  induction f as [|b f IH]; intros at_byte acc H1 Hl.
  - cbn [data_size_fragment ds]. rewrite lenN_nil, N.add_0_r. reflexivity.
  - rewrite lenN_cons in *. cbn [data_size_fragment ds].
    destruct (N.eqb_spec at_byte 1) as [E|E].
    + subst. change (shift_of 1) with (shift_of 2). rewrite IH by lia.
      replace (1 + (1 + lenN f)) with (2 + lenN f) by lia. reflexivity.
    + assert (Es : shift_of at_byte = (8 * (4 - Z.of_N at_byte))%Z).
      { unfold shift_of. destruct (N.eqb_spec at_byte 1); [contradiction|reflexivity]. }
      destruct (Z.ltb_spec (shift_of at_byte) 0) as [Hneg|Hpos]; [lia|].
      assert (Es' : (shift_of at_byte - 8)%Z = shift_of (at_byte + 1)).
      { rewrite Es. unfold shift_of. destruct (N.eqb_spec (at_byte + 1) 1); lia. }
      rewrite Es'. assert (Ea : Z.to_N (shift_of at_byte) = 8 * (4 - at_byte)) by lia.
      rewrite Ea. unfold kTlsHandshakeHeaderLength.
      destruct (N.ltb_spec 4 (at_byte + 1)) as [Hb|Hb].
      * assert (at_byte = 4) by lia. assert (lenN f = 0) by lia.
        apply lenN_0 in H0. subst. reflexivity.
      * rewrite IH by lia.
        replace (at_byte + (1 + lenN f)) with (at_byte + 1 + lenN f) by lia. reflexivity.
Qed.

Lemma ds_app : forall a b at_byte acc, 1 <= at_byte ->
  ds (a ++ b) at_byte acc = ds b (at_byte + lenN a) (ds a at_byte acc).
Proof.
  induction a as [|x a IH]; intros b at_byte acc H1.
  - cbn [app ds]. rewrite lenN_nil, N.add_0_r. reflexivity.
  - cbn [app ds]. rewrite lenN_cons. destruct (N.eqb_spec at_byte 1) as [E|E].
    + rewrite IH by lia. f_equal. lia.
    + rewrite IH by lia. f_equal. lia.
Qed.

Lemma data_size_fragments_spec : forall fs at_byte acc,
  1 <= at_byte -> at_byte + lenN (concat fs) <= 5 ->
  data_size_fragments fs at_byte (shift_of at_byte) acc =
  Done (ds (concat fs) at_byte acc).
Proof.
  induction fs as [|f fs IH]; intros at_byte acc H1 Hl; [reflexivity|].
  cbn [concat data_size_fragments] in *. rewrite lenN_app in Hl.
  rewrite data_size_fragment_spec by lia. cbn [obind].
  rewrite IH by lia. rewrite ds_app by lia. reflexivity.
Qed.

Lemma get_data_size_spec : forall h t a b c,
  concat (hs_frags h) = [t; a; b; c] -> bytes_ok [t; a; b; c] ->
  get_data_size h = Done (a * 65536 + b * 256 + c).
Proof.
  intros h t a b c E Hok. unfold get_data_size.
  change 16%Z with (shift_of 1).
  rewrite data_size_fragments_spec; [|lia|rewrite E; cbn; lia].
  rewrite E. f_equal. cbn [ds N.eqb Pos.eqb N.add Pos.add Pos.succ].
  unfold bytes_ok in Hok.
  repeat match goal with H : Forall _ (_ :: _) |- _ => inversion H; clear H; subst end.
  unfold byte_ok in *.
  rewrite N.lor_0_l.
  change (8 * (4 - 2)) with 16. change (8 * (4 - 3)) with 8. change (8 * (4 - 4)) with 0.
  rewrite (N.shiftl_0_r c).
  rewrite (lor_shift_add a (N.shiftl b 8) 16).
  2:{ rewrite N.shiftl_mul_pow2. change (2 ^ 8) with 256. change (2 ^ 16) with 65536. lia. }
  rewrite !N.shiftl_mul_pow2. change (2 ^ 16) with 65536. change (2 ^ 8) with 256.
  replace (a * 65536 + b * 256) with (N.shiftl (a * 256 + b) 8)
    by (rewrite N.shiftl_mul_pow2; change (2 ^ 8) with 256; lia).
  rewrite lor_shift_add by (change (2 ^ 8) with 256; assumption).
  rewrite N.shiftl_mul_pow2; change (2 ^ 8) with 256. lia.
Qed.

(* ------------------------------------------------------------------ *)
(* Invariant: the handler has consumed complete messages and [buf], a proper
   prefix of the next one. *)

Definition skips (h : handler) (t : N) : bool :=
  ignore_future_tickets h && (t =? 4).

Inductive pos_ok (h : handler) : bytes -> Prop :=
| PosHeader : forall buf,
    hs_st h = READ_HEADER -> concat (hs_frags h) = buf ->
    Forall (fun f => f <> []) (hs_frags h) -> lenN buf < 4 ->
    hs_hdr h = 4 - lenN buf -> bytes_ok buf -> pos_ok h buf
| PosData : forall t a b c part,
    hs_st h = READ_DATA -> hs_hdr h = 4 ->
    bytes_ok (t :: a :: b :: c :: part) ->
    lenN part < a * 65536 + b * 256 + c ->
    hs_data h = a * 65536 + b * 256 + c - lenN part ->
    Forall (fun f => f <> []) (hs_frags h) ->
    concat (hs_frags h) =
      (if skips h t then [t; a; b; c] else t :: a :: b :: c :: part) ->
    pos_ok h (t :: a :: b :: c :: part).

(* [o]: the tickets stored, or None once they have been retrieved. *)
Definition tick_ok (h : handler) (o : option (list bytes)) : Prop :=
  match o with
  | Some l => exists ts, hs_tickets h = Some ts /\ map (@concat N) ts = l /\
                hs_num h = lenN l /\ lenN l <= 5 /\ hs_retrieved h = false
  | None => hs_tickets h = None /\ hs_num h = 0 /\ hs_retrieved h = true
  end.

Definition hs_inv (h : handler) (o : option (list bytes)) (buf : bytes) : Prop :=
  pos_ok h buf /\ tick_ok h o.

(* What storing a complete message does. *)
Definition step_store (o : option (list bytes)) (m : bytes) : option (list bytes) :=
  match o with
  | Some l => Some (if is_ticket m && (lenN l <? 5) then l ++ [m] else l)
  | None => None
  end.
Definition store_all (o : option (list bytes)) (ms : list bytes) :=
  fold_left step_store ms o.

Lemma new_handler_inv : hs_inv new_handler (Some []) [].
Proof.
  split.
  - apply PosHeader; try reflexivity; constructor.
  - exists []; repeat split; cbn; lia.
Qed.

Lemma pos_partial : forall h buf, pos_ok h buf -> hs_partial buf.
Proof.
  intros h buf H. unfold hs_partial. inversion H; subst.
  - set (l := concat (hs_frags h)) in *.
    destruct l as [|t [|a [|b [|c l]]]]; try (cbn in *; lia).
    + exists [0; 0; 0; 1; 0]. split; [discriminate|].
      exists 0, 0, 0, 1, [0]. repeat split; try discriminate.
      repeat constructor; unfold byte_ok; lia.
    + exists [0; 0; 1; 0]. split; [discriminate|].
      exists t, 0, 0, 1, [0]. repeat split; try discriminate.
      cbn [app]. inversion H5; subst. repeat constructor; unfold byte_ok in *; try lia.
    + exists ([0; 1] ++ zeros (a * 65536 + 1)). split; [discriminate|].
      exists t, a, 0, 1, (zeros (a * 65536 + 1)). repeat split.
      * cbn [app]. inversion H5 as [|? ? Q1 Q2]; subst. inversion Q2; subst.
        repeat constructor; unfold byte_ok in *; try lia. apply bytes_ok_zeros.
      * rewrite lenN_zeros. lia.
      * intro E. assert (lenN (zeros (a * 65536 + 1)) = 0) by (rewrite E; reflexivity).
        rewrite lenN_zeros in *. lia.
    + exists ([1] ++ zeros (a * 65536 + b * 256 + 1)). split; [discriminate|].
      exists t, a, b, 1, (zeros (a * 65536 + b * 256 + 1)). repeat split.
      * cbn [app]. inversion H5 as [|? ? Q1 Q2]; subst. inversion Q2 as [|? ? Q3 Q4]; subst.
        inversion Q4; subst.
        repeat constructor; unfold byte_ok in *; try lia. apply bytes_ok_zeros.
      * rewrite lenN_zeros. lia.
      * intro E. assert (lenN (zeros (a * 65536 + b * 256 + 1)) = 0) by (rewrite E; reflexivity).
        rewrite lenN_zeros in *. lia.
  - exists (zeros (a * 65536 + b * 256 + c - lenN part)). split.
    + intro E. assert (lenN (zeros (a * 65536 + b * 256 + c - lenN part)) = 0)
        by (rewrite E; reflexivity).
      rewrite lenN_zeros in *. lia.
    + exists t, a, b, c, (part ++ zeros (a * 65536 + b * 256 + c - lenN part)).
      repeat split.
      * rewrite bytes_ok_app; split; [assumption|apply bytes_ok_zeros].
      * rewrite lenN_app, lenN_zeros. lia.
      * intro E. apply app_eq_nil in E. destruct E as [_ E].
        assert (lenN (zeros (a * 65536 + b * 256 + c - lenN part)) = 0)
          by (rewrite E; reflexivity).
        rewrite lenN_zeros in *. lia.
Qed.

Lemma type_of_frags : forall h x r, Forall (fun f => f <> []) (hs_frags h) ->
  concat (hs_frags h) = x :: r -> get_message_type h = Done x.
Proof.
  intros h x r Hf E. unfold get_message_type.
  destruct (hs_frags h) as [|f fs]; [discriminate|].
  inversion Hf; subst. destruct f as [|y f]; [contradiction|].
  cbn in E. inversion E; reflexivity.
Qed.

Lemma pos_type : forall h x r, pos_ok h (x :: r) -> get_message_type h = Done x.
Proof.
  intros h x r H. inversion H; subst.
  - eapply type_of_frags; eassumption.
  - destruct (skips h x); eapply type_of_frags; eassumption.
Qed.

Lemma pos_expecting : forall h buf, pos_ok h buf -> expecting_more h = negb (empty buf).
Proof.
  intros h buf H. unfold expecting_more. inversion H; subst.
  - destruct (hs_frags h) as [|f fs]; [reflexivity|].
    inversion H2; subst. destruct f; [contradiction|]. reflexivity.
  - destruct (hs_frags h) as [|f fs]; [|reflexivity].
    destruct (skips h t); discriminate.
Qed.

Lemma tick_ok_frags : forall h o f, tick_ok h o -> tick_ok (with_frags h f) o.
Proof. intros h [l|] f H; exact H. Qed.
Lemma tick_ok_pos : forall h o a b c, tick_ok h o -> tick_ok (with_pos h a b c) o.
Proof. intros h [l|] a b c H; exact H. Qed.
Lemma skips_frags : forall h f t, skips (with_frags h f) t = skips h t.
Proof. reflexivity. Qed.
Lemma skips_pos : forall h a b c t, skips (with_pos h a b c) t = skips h t.
Proof. reflexivity. Qed.

Lemma concat_snoc : forall (l : list bytes) x, concat (l ++ [x]) = concat l ++ x.
Proof. intros; rewrite concat_app; cbn; rewrite app_nil_r; reflexivity. Qed.

Lemma Forall_snoc : forall (Q : bytes -> Prop) l x, Forall Q l -> Q x -> Forall Q (l ++ [x]).
Proof. intros; apply Forall_app; auto. Qed.

Lemma takeN_nonempty : forall (n : N) (l : bytes), 0 < n -> l <> [] -> takeN n l <> [].
Proof.
  intros n l Hn Hl E. assert (lenN (takeN n l) = 0) by (rewrite E; reflexivity).
  rewrite lenN_takeN in H. destruct l; [contradiction|]. rewrite lenN_cons in H. lia.
Qed.

(* Storing a fragment in READ_DATA state. *)
Lemma store_data : forall h t a b c part frag,
  hs_st h = READ_DATA ->
  Forall (fun f => f <> []) (hs_frags h) ->
  concat (hs_frags h) =
    (if skips h t then [t; a; b; c] else t :: a :: b :: c :: part) ->
  frag <> [] ->
  exists fs, store_fragment h frag = Done (with_frags h fs) /\
    Forall (fun f => f <> []) fs /\
    concat fs = (if skips h t then [t; a; b; c] else t :: a :: b :: c :: part ++ frag).
Proof.
  intros h t a b c part frag Hs Hf Hc Hne. unfold store_fragment. rewrite Hs.
  assert (Ht : get_message_type h = Done t).
  { destruct (skips h t); eapply type_of_frags; eassumption. }
  rewrite Ht. cbn [obind]. unfold skips in *. unfold kSessionTicketMessageType.
  destruct (ignore_future_tickets h); cbn [andb] in *.
  - destruct (t =? 4).
    + exists (hs_frags h). split; [|split; auto]. destruct h; reflexivity.
    + exists (hs_frags h ++ [frag]). split; [reflexivity|]. split; [apply Forall_snoc; auto|].
      rewrite concat_snoc, Hc. reflexivity.
  - exists (hs_frags h ++ [frag]). split; [reflexivity|]. split; [apply Forall_snoc; auto|].
    rewrite concat_snoc, Hc. reflexivity.
Qed.

Lemma store_header : forall h frag, hs_st h = READ_HEADER ->
  store_fragment h frag = Done (with_frags h (hs_frags h ++ [frag])).
Proof.
  intros h frag Hs. unfold store_fragment. rewrite Hs.
  destruct (ignore_future_tickets h); reflexivity.
Qed.

(* The handler right after the last byte of message [m]. *)
Definition full_ok (h : handler) (m : bytes) : Prop :=
  hs_st h = READ_HEADER /\ hs_hdr h = 4 /\
  Forall (fun f => f <> []) (hs_frags h) /\
  exists t a b c body, m = t :: a :: b :: c :: body /\
    concat (hs_frags h) = (if skips h t then [t; a; b; c] else m).

Lemma read_step_spec : forall h o buf pt,
  hs_inv h o buf -> bytes_ok pt -> pt <> [] ->
  exists taken rest, pt = taken ++ rest /\ taken <> [] /\
    ((exists h1, read_step h pt = Done (rest, false, h1) /\ hs_zero (buf ++ taken) /\
        hs_st h1 = READ_HEADER /\ hs_hdr h1 = 4 /\ Forall (fun f => f <> []) (hs_frags h1) /\
        concat (hs_frags h1) = buf ++ taken /\ tick_ok h1 o) \/
     (exists h1, read_step h pt = Done (rest, false, h1) /\ hs_inv h1 o (buf ++ taken)) \/
     (exists h1, read_step h pt = Done (rest, true, h1) /\ hs_msg (buf ++ taken) /\
        full_ok h1 (buf ++ taken) /\ tick_ok h1 o)).
Proof.
  intros h o buf pt [Hp Ht] Hb Hne. unfold read_step.
  inversion Hp as [buf0 Hs Hc Hf Hl Hh Hbb E|t a b c part Hs Hh Hbb Hl Hd Hf Hc E]; subst; rewrite Hs.
  - set (l := concat (hs_frags h)) in *. rewrite Hh.
    destruct (N.leb_spec (4 - lenN l) (lenN pt)) as [Hle|Hgt].
    + exists (takeN (4 - lenN l) pt), (dropN (4 - lenN l) pt).
      split; [symmetry; apply takeN_dropN|].
      split; [apply takeN_nonempty; [lia|exact Hne]|].
      rewrite store_header by exact Hs. cbn [obind].
      set (tk := takeN (4 - lenN l) pt).
      assert (Htk : lenN tk = 4 - lenN l) by (unfold tk; rewrite lenN_takeN; lia).
      match goal with |- context[get_data_size ?x] => set (h1 := x) end.
      assert (Hc1 : concat (hs_frags h1) = l ++ tk) by (apply concat_snoc).
      assert (Hbl : bytes_ok (l ++ tk)).
      { apply bytes_ok_app; split; [exact Hbb|]. apply Forall_takeN; exact Hb. }
      assert (H4 : exists t a b c, l ++ tk = [t; a; b; c]).
      { assert (L4 : lenN (l ++ tk) = 4) by (rewrite lenN_app; lia).
        destruct (l ++ tk) as [|t [|a [|b [|c [|e r]]]]]; rewrite ?lenN_cons, ?lenN_nil in L4;
          try lia. eauto. }
      destruct H4 as (t & a & b & c & E4).
      rewrite E4 in Hc1, Hbl.
      rewrite (get_data_size_spec h1 t a b c Hc1 Hbl). cbn [obind].
      rewrite E4.
      destruct (N.ltb_spec 0 (a * 65536 + b * 256 + c)) as [Hpos|Hz].
      * right; left. eexists; split; [reflexivity|]. split.
        -- apply PosData; cbn [with_pos with_frags hs_st hs_hdr hs_data hs_frags];
             try reflexivity; auto.
           ++ rewrite lenN_nil; lia.
           ++ apply Forall_snoc; [exact Hf|]. intro E; rewrite E, lenN_nil in Htk; lia.
           ++ rewrite skips_pos. destruct (skips h1 t); exact Hc1.
        -- apply tick_ok_pos, tick_ok_frags; exact Ht.
      * left. eexists; split; [reflexivity|].
        split; [exists t; assert (a = 0 /\ b = 0 /\ c = 0) as (-> & -> & ->) by lia; reflexivity|].
        cbn [with_pos with_frags hs_st hs_hdr hs_frags].
        split; [reflexivity|]. split; [reflexivity|].
        split; [apply Forall_snoc; [exact Hf|]; intro E; rewrite E, lenN_nil in Htk; lia|].
        split; [exact Hc1|]. apply tick_ok_pos, tick_ok_frags; exact Ht.
    + exists pt, []. split; [symmetry; apply app_nil_r|]. split; [exact Hne|].
      right; left. rewrite store_header by exact Hs. cbn [obind].
      eexists; split; [reflexivity|]. split; [|apply tick_ok_pos, tick_ok_frags; exact Ht].
      apply PosHeader; cbn [with_pos with_frags hs_st hs_hdr hs_frags]; auto.
      * apply concat_snoc.
      * apply Forall_snoc; assumption.
      * rewrite lenN_app; lia.
      * rewrite lenN_app; lia.
      * apply bytes_ok_app; auto.
  - rewrite Hd. set (size := a * 65536 + b * 256 + c) in *.
    destruct (N.leb_spec (size - lenN part) (lenN pt)) as [Hle|Hgt].
    + exists (takeN (size - lenN part) pt), (dropN (size - lenN part) pt).
      split; [symmetry; apply takeN_dropN|].
      split; [apply takeN_nonempty; [lia|exact Hne]|].
      set (tk := takeN (size - lenN part) pt).
      assert (Htk : lenN tk = size - lenN part) by (unfold tk; rewrite lenN_takeN; lia).
      assert (Htn : tk <> []) by (intro E; rewrite E, lenN_nil in Htk; lia).
      destruct (store_data h t a b c part tk Hs Hf Hc Htn) as (fs & Est & Hf' & Hc').
      rewrite Est. cbn [obind]. right; right.
      eexists; split; [reflexivity|]. split; [|split; [split; [|split; [|split]]|]].
      * exists t, a, b, c, (part ++ tk). repeat split.
        -- change ((t :: a :: b :: c :: part) ++ tk) with ((t :: a :: b :: c :: part) ++ tk).
           apply bytes_ok_app; split; [exact Hbb|]. apply Forall_takeN; exact Hb.
        -- rewrite lenN_app. fold size. lia.
        -- intro E. apply app_eq_nil in E. destruct E; contradiction.
      * reflexivity.
      * exact Hh.
      * exact Hf'.
      * exists t, a, b, c, (part ++ tk). split; [reflexivity|]. exact Hc'.
      * apply tick_ok_pos, tick_ok_frags; exact Ht.
    + exists pt, []. split; [symmetry; apply app_nil_r|]. split; [exact Hne|].
      right; left.
      destruct (store_data h t a b c part pt Hs Hf Hc Hne) as (fs & Est & Hf' & Hc').
      rewrite Est. cbn [obind].
      eexists; split; [reflexivity|]. split; [|apply tick_ok_pos, tick_ok_frags; exact Ht].
      cbn [app]. apply PosData; cbn [with_pos with_frags hs_st hs_hdr hs_data hs_frags]; auto.
      * change (t :: a :: b :: c :: part ++ pt) with ((t :: a :: b :: c :: part) ++ pt).
        apply bytes_ok_app; auto.
      * rewrite lenN_app; fold size; lia.
      * rewrite lenN_app; fold size; lia.
Qed.

(* ------------------------------------------------------------------ *)
(* The loop *)

(* A handler that cannot complete a message any more: the first byte it keeps
   is of no known type, or it expects a header while the four bytes of another
   one are still stored. *)
Definition dead (h : handler) : Prop :=
  1 <= hs_hdr h /\ (hs_st h = READ_DATA -> 1 <= hs_data h) /\
  Forall (fun f => f <> []) (hs_frags h) /\
  ((exists b r, concat (hs_frags h) = b :: r /\ b <> 24 /\ b <> 4) \/
   (hs_st h = READ_HEADER /\ 4 <= lenN (concat (hs_frags h)))).

(* The classification of what one record's handshake bytes do. *)
Definition proc_ok (h : handler) (o : option (list bytes)) (buf pt : bytes)
  (cu ct : bool) (res : outcome (handler * (code + hs_result))) : Prop :=
  exists h' r ms buf',
    res = Done (h', inr r) /\
    buf ++ pt = concat ms ++ buf' /\
    Forall hs_msg ms /\ Forall known ms /\ (buf' <> [] -> known buf') /\
    hs_inv h' (store_all o ms) buf' /\ key_update_last ms buf' /\
    r_expecting r = negb (empty buf') /\
    r_key_update r = cu || (negb (empty pt) && existsb is_key_update (ms ++ [buf'])) /\
    r_ticket r = ct || (negb (empty pt) && existsb is_ticket (ms ++ [buf'])) /\
    r_num r = hs_num h' /\ r_key_update_type r = update_type ms.

Definition proc_err (o : option (list bytes)) (buf pt : bytes)
  (res : outcome (handler * (code + hs_result))) : Prop :=
  exists h' ms m rest,
    res = Done (h', inl kInternal) /\
    buf ++ pt = concat ms ++ m ++ rest /\
    Forall hs_msg ms /\ Forall (fun m => is_ticket m = true) ms /\
    ((m <> [] /\ ~ known m) \/ (hs_msg m /\ is_key_update m = true /\ rest <> [])) /\
    dead h' /\ tick_ok h' (store_all o ms).

(* A message with an empty body: fatal if another header follows. *)
Definition proc_zero (o : option (list bytes)) (buf pt : bytes) (ct : bool)
  (res : outcome (handler * (code + hs_result))) : Prop :=
  exists ms z rest,
    buf ++ pt = concat ms ++ z ++ rest /\
    Forall hs_msg ms /\ Forall (fun m => is_ticket m = true) ms /\
    hs_zero z /\ known z /\
    ((4 <= lenN rest /\ res = Undef UbNegativeShift) \/
     (lenN rest < 4 /\ exists h' r, res = Done (h', inr r) /\ dead h' /\
        tick_ok h' (store_all o ms) /\ (exists q, concat (hs_frags h') = z ++ q) /\
        (r_ticket r = true -> ct = true \/ existsb is_ticket (ms ++ [z]) = true))).

Lemma has_type_app : forall t a b, a <> [] -> has_type t (a ++ b) = has_type t a.
Proof. intros t [|x a] b H; [contradiction|reflexivity]. Qed.

Lemma is_ticket_app : forall a b, a <> [] -> is_ticket (a ++ b) = is_ticket a.
Proof. intros; apply has_type_app; assumption. Qed.
Lemma is_key_update_app : forall a b, a <> [] -> is_key_update (a ++ b) = is_key_update a.
Proof. intros; apply has_type_app; assumption. Qed.

Lemma hs_msg_ne : forall m, hs_msg m -> m <> [].
Proof. intros m (t & a & b & c & body & -> & _); discriminate. Qed.

Lemma app_ne_l : forall (a b : bytes), a <> [] -> a ++ b <> [].
Proof. intros [|x a] b H; [contradiction|discriminate]. Qed.
Lemma app_ne_r : forall (a b : bytes), b <> [] -> a ++ b <> [].
Proof. intros [|x a] b H; [exact H|discriminate]. Qed.

(* If a stream starts with the bytes b1 <> [] then the first piece of any
   decomposition has the type of b1. *)
Lemma first_type : forall t b1 rest ms buf',
  b1 <> [] -> b1 ++ rest = concat ms ++ buf' -> Forall hs_msg ms ->
  has_type t b1 = true -> existsb (has_type t) (ms ++ [buf']) = true.
Proof.
  intros t b1 rest ms buf' Hne E Hm Ht.
  destruct ms as [|m ms].
  - cbn in *. subst buf'. rewrite has_type_app by exact Hne. rewrite Ht; reflexivity.
  - inversion Hm as [|? ? Hm1 Hm2]; subst. apply hs_msg_ne in Hm1.
    cbn [concat] in E. rewrite <- app_assoc in E.
    destruct b1 as [|x b1]; [contradiction|]. destruct m as [|y m]; [contradiction|].
    cbn [app] in E. inversion E; subst.
    cbn [app existsb]. cbn [has_type] in *. rewrite Ht. reflexivity.
Qed.

Lemma step_store_not_ticket : forall o m, is_ticket m = false -> step_store o m = o.
Proof. intros [l|] m H; cbn; [rewrite H|]; reflexivity. Qed.

Lemma full_reset : forall h m, full_ok h m -> pos_ok (with_frags h []) [].
Proof.
  intros h m (Hs & Hh & _). apply PosHeader; cbn; auto; try lia. constructor.
Qed.

Lemma full_type : forall h x r, full_ok h (x :: r) -> get_message_type h = Done x.
Proof.
  intros h x r (Hs & Hh & Hf & t & a & b & c & body & E & Hc). inversion E; subst.
  destruct (skips h t); eapply type_of_frags; eassumption.
Qed.

Lemma partial_no_msg : forall b ms buf', hs_partial b -> b = concat ms ++ buf' ->
  Forall hs_msg ms -> ms = [] /\ buf' = b.
Proof.
  intros b ms buf' Hp E Hm. destruct ms as [|m ms]; [auto|]. exfalso.
  destruct Hp as (rr & Hrr & Hmm).
  inversion Hm as [|? ? Q1 Q2]; subst.
  destruct Q1 as (t1 & a1 & c1 & d1 & bd1 & -> & _ & L1 & _).
  destruct Hmm as (t2 & a2 & c2 & d2 & bd2 & E2 & _ & L2 & _).
  cbn [concat app] in E2. inversion E2; subst.
  rewrite !lenN_app in L2.
  destruct rr as [|? rr]; [contradiction|]. rewrite lenN_cons in L2. lia.
Qed.

Lemma proc_end : forall h o buf cu ct fuel, hs_inv h o buf ->
  (buf <> [] -> known buf) ->
  proc_ok h o buf [] cu ct (process_loop fuel h [] cu ct).
Proof.
  intros h o buf cu ct fuel Hinv Hk.
  exists h. do 1 eexists. exists [], buf.
  split; [destruct fuel; reflexivity|].
  rewrite app_nil_r. cbn [concat app r_expecting r_key_update r_key_update_type r_ticket r_num empty negb andb update_type].
  rewrite !orb_false_r. destruct Hinv as [Hp Ht].
  split; [reflexivity|]. split; [constructor|]. split; [constructor|].
  split; [exact Hk|]. split; [split; assumption|]. split; [exact I|].
  split; [apply pos_expecting; assumption|]. auto.
Qed.

Lemma orb_shift : forall a b e x, (e = true -> x = true) ->
  (a || b) || x = a || (x || b).
Proof. intros [] [] [] []; reflexivity. Qed.

(* Extending by the bytes taken without completing a message. *)
Lemma proc_partial : forall h h1 o buf taken rest cu ct cu' ct' res,
  hs_inv h1 o (buf ++ taken) -> taken <> [] -> known (buf ++ taken) ->
  cu' = cu || is_key_update (buf ++ taken) ->
  ct' = ct || is_ticket (buf ++ taken) ->
  proc_ok h1 o (buf ++ taken) rest cu' ct' res ->
  proc_ok h o buf (taken ++ rest) cu ct res.
Proof.
  intros h h1 o buf taken rest cu ct cu' ct' res Hinv Htn Hk Ecu Ect
    (h' & r & ms & buf' & R1 & R2 & R3 & R4 & R5 & R6 & R7 & R8 & R9 & R10 & R11).
  set (b1 := buf ++ taken) in *.
  assert (Hb1 : b1 <> []) by (unfold b1; apply app_ne_r; exact Htn).
  assert (Hem : empty (taken ++ rest) = false).
  { destruct taken; [contradiction|reflexivity]. }
  assert (Hrest : rest = [] -> ms = [] /\ buf' = b1).
  { intros ->. rewrite app_nil_r in R2. apply partial_no_msg; auto.
    eapply pos_partial; apply Hinv. }
  exists h', r, ms, buf'. split; [exact R1|].
  split; [rewrite app_assoc; exact R2|].
  split; [exact R3|]. split; [exact R4|]. split; [exact R5|].
  split; [exact R6|]. split; [exact R7|]. split; [exact R8|].
  rewrite Hem. cbn [negb andb].
  assert (Fu : is_key_update b1 = true -> existsb is_key_update (ms ++ [buf']) = true).
  { intros Ht. eapply (first_type 24 b1 rest); eauto. }
  assert (Ft : is_ticket b1 = true -> existsb is_ticket (ms ++ [buf']) = true).
  { intros Ht. eapply (first_type 4 b1 rest); eauto. }
  split; [|split; [|exact R11]].
  - rewrite R9, Ecu. destruct rest as [|z rest0].
    + destruct (Hrest eq_refl) as [-> ->]. cbn. rewrite !orb_false_r. reflexivity.
    + cbn [empty negb andb]. destruct (is_key_update b1); [rewrite Fu by reflexivity|];
        destruct cu; cbn; try reflexivity.
  - rewrite R10, Ect. destruct rest as [|z rest0].
    + destruct (Hrest eq_refl) as [-> ->]. cbn. rewrite !orb_false_r. reflexivity.
    + cbn [empty negb andb]. destruct (is_ticket b1); [rewrite Ft by reflexivity|];
        destruct ct; cbn; try reflexivity.
Qed.

(* After a complete ticket. *)
Lemma proc_ticket : forall h h1 o buf taken rest cu ct res,
  hs_msg (buf ++ taken) -> taken <> [] -> is_ticket (buf ++ taken) = true ->
  is_key_update (buf ++ taken) = false ->
  proc_ok h1 (step_store o (buf ++ taken)) [] rest cu true res ->
  proc_ok h o buf (taken ++ rest) cu ct res.
Proof.
  intros h h1 o buf taken rest cu ct res Hmsg Htn Ht Hku
    (h' & r & ms & buf' & R1 & R2 & R3 & R4 & R5 & R6 & R7 & R8 & R9 & R10 & R11).
  set (b1 := buf ++ taken) in *.
  assert (Hem : empty (taken ++ rest) = false).
  { destruct taken; [contradiction|reflexivity]. }
  exists h', r, (b1 :: ms), buf'. split; [exact R1|].
  split; [rewrite app_assoc; fold b1; cbn [concat app] in *; rewrite <- app_assoc, <- R2; reflexivity|].
  split; [constructor; assumption|]. split; [constructor; [left; exact Ht|assumption]|].
  assert (Hrest : rest = [] -> ms = [] /\ buf' = []).
  { intros ->. cbn [app] in R2. symmetry in R2. apply app_eq_nil in R2. destruct R2 as [E ->].
    split; [|reflexivity]. destruct ms as [|m ms]; [reflexivity|].
    cbn in E. apply app_eq_nil in E. destruct E as [-> _].
    inversion R3 as [|? ? Q _]; subst. apply hs_msg_ne in Q. contradiction. }
  split; [exact R5|].
  split; [exact R6|]. split.
  { cbn. split; [rewrite Hku; discriminate|exact R7]. }
  split; [exact R8|]. rewrite Hem. cbn [negb andb].
  split; [|split; [|split; [exact (proj1 R11)|]]].
  - rewrite R9. cbn [app existsb]. rewrite Hku. cbn [orb].
    destruct rest as [|z rest0]; [|reflexivity].
    destruct (Hrest eq_refl) as [-> ->]. reflexivity.
  - rewrite R10. cbn [app existsb]. rewrite Ht. cbn. rewrite orb_true_r. reflexivity.
  - rewrite (proj2 R11). destruct ms; [|reflexivity]. cbn [update_type]. rewrite Hku. reflexivity.
Qed.

Lemma tick_ignore : forall h o, tick_ok h o ->
  ignore_future_tickets h = match o with Some l => 5 <=? lenN l | None => true end.
Proof.
  intros h [l|] H; cbn in H; unfold ignore_future_tickets, kMaxNumTicketsToProcess.
  - destruct H as (ts & _ & _ & -> & _ & ->). reflexivity.
  - destruct H as (_ & _ & ->). reflexivity.
Qed.

Lemma data_size_fragment_stop : forall f at_byte acc,
  1 <= at_byte <= 4 -> 5 <= at_byte + lenN f ->
  exists acc', data_size_fragment f at_byte (shift_of at_byte) acc = Done (5, shift_of 5, acc').
Proof.
  induction f as [|b f IH]; intros at_byte acc H1 Hl; [rewrite lenN_nil in Hl; lia|].
  rewrite lenN_cons in Hl. cbn [data_size_fragment].
  destruct (N.eqb_spec at_byte 1) as [->|E].
  - change (shift_of 1) with (shift_of 2). apply IH; lia.
  - assert (Es : shift_of at_byte = (8 * (4 - Z.of_N at_byte))%Z).
    { unfold shift_of. destruct (N.eqb_spec at_byte 1); [contradiction|reflexivity]. }
    destruct (Z.ltb_spec (shift_of at_byte) 0) as [Hneg|Hpos]; [lia|].
    assert (Es' : (shift_of at_byte - 8)%Z = shift_of (at_byte + 1)).
    { rewrite Es. unfold shift_of. destruct (N.eqb_spec (at_byte + 1) 1); lia. }
    rewrite Es'. unfold kTlsHandshakeHeaderLength.
    destruct (N.ltb_spec 4 (at_byte + 1)) as [Hb|Hb]; [|apply IH; lia].
    assert (at_byte = 4) as -> by lia. eauto.
Qed.

(* A fragment after the fourth byte. *)
Lemma data_size_stale : forall fs tk at_byte acc, 1 <= at_byte <= 5 ->
  5 <= at_byte + lenN (concat fs) -> Forall (fun f => f <> []) (fs ++ [tk]) ->
  data_size_fragments (fs ++ [tk]) at_byte (shift_of at_byte) acc = Undef UbNegativeShift.
Proof.
  induction fs as [|f fs IH]; intros tk at_byte acc H1 Hl Hf.
  - cbn [concat app] in *. rewrite lenN_nil in Hl. assert (at_byte = 5) as -> by lia.
    destruct tk as [|b tk]; [exfalso; exact (Forall_inv Hf eq_refl)|]. reflexivity.
  - cbn [concat app data_size_fragments] in *. rewrite lenN_app in Hl.
    inversion Hf as [|? ? Hf1 Hf2]; subst.
    destruct (N.eq_dec at_byte 5) as [->|H5].
    { destruct f as [|b f]; [contradiction|]. reflexivity. }
    destruct (N.le_gt_cases 5 (at_byte + lenN f)) as [Hc|Hc].
    + destruct (data_size_fragment_stop f at_byte acc) as (acc' & E); [lia|lia|].
      rewrite E. cbn [obind]. apply IH; [lia|lia|exact Hf2].
    + rewrite data_size_fragment_spec by lia. cbn [obind]. apply IH; [lia|lia|exact Hf2].
Qed.

(* Reading a header while another one is stored. *)
Lemma stale_header : forall h fs tk, hs_frags h = fs ++ [tk] -> 4 <= lenN (concat fs) ->
  Forall (fun f => f <> []) (hs_frags h) -> get_data_size h = Undef UbNegativeShift.
Proof.
  intros h fs tk E L Hf. unfold get_data_size. rewrite E in Hf |- *.
  change 16%Z with (shift_of 1). apply data_size_stale; [lia|lia|exact Hf].
Qed.

Lemma concat_first : forall (fs : list bytes) g b r, concat fs = b :: r ->
  exists r', concat (fs ++ g) = b :: r'.
Proof. intros fs g b r E. rewrite concat_app, E. cbn. eauto. Qed.

(* A step of a dead handler. *)
Lemma dead_step : forall h o pt, dead h -> tick_ok h o -> pt <> [] ->
  read_step h pt = Undef UbNegativeShift \/
  exists rest full h1 t, read_step h pt = Done (rest, full, h1) /\
    (exists r0 r1, concat (hs_frags h) = t :: r0 /\ concat (hs_frags h1) = t :: r1) /\
    get_message_type h1 = Done t /\ dead h1 /\ tick_ok h1 o /\
    (length rest < length pt)%nat /\
    ((t <> 24 /\ t <> 4) \/ full = false).
Proof.
  intros h o pt (D1 & D2 & D3 & D4) Ht Hne. unfold read_step.
  assert (Hl : (0 < length pt)%nat) by (destruct pt; [contradiction|cbn; lia]).
  assert (Hdr : forall n, 1 <= n -> (length (dropN n pt) < length pt)%nat).
  { intros n Hn. unfold dropN. rewrite skipn_length. lia. }
  (* appending a fragment *)
  assert (Hsn : forall f, f <> [] -> Forall (fun g => g <> []) (hs_frags h ++ [f])).
  { intros f Hf. apply Forall_snoc; assumption. }
  destruct (hs_st h) eqn:Es.
  - destruct (N.leb_spec (hs_hdr h) (lenN pt)) as [Hle|Hgt].
    + rewrite store_header by exact Es. cbn [obind].
      set (tk := takeN (hs_hdr h) pt).
      assert (Htn : tk <> []) by (apply takeN_nonempty; [lia|exact Hne]).
      destruct D4 as [(b & r & E & H24 & H4)|(_ & L)].
      * match goal with |- context[get_data_size ?y] => destruct (get_data_size y) as [size|u|] eqn:Eg end.
        -- right. cbn [obind]. destruct (concat_first _ [tk] _ _ E) as (r' & E').
           do 4 eexists. split; [reflexivity|]. split; [exists r, r'; split; [exact E|exact E']|].
           split; [eapply type_of_frags; [apply Hsn; exact Htn|exact E']|].
           split; [|split; [apply tick_ok_pos, tick_ok_frags; exact Ht|split; [apply Hdr; exact D1|left; auto]]].
           split; [cbn; unfold kTlsHandshakeHeaderLength; lia|].
           split; [cbn; destruct (N.ltb_spec 0 size); [lia|discriminate]|].
           split; [apply Hsn; exact Htn|]. left. exists b, r'. auto.
        -- left. cbn [obind]. unfold get_data_size in Eg.
           assert (Hs : forall fs a s acc, data_size_fragments fs a s acc = Undef u -> u = UbNegativeShift).
           { assert (Hs1 : forall f a s acc, data_size_fragment f a s acc = Undef u -> u = UbNegativeShift).
             { induction f as [|x f IH]; intros a s acc K; cbn in K; [discriminate|].
               destruct (a =? 1); [eauto|]. destruct (s <? 0)%Z; [congruence|].
               destruct (kTlsHandshakeHeaderLength <? a + 1); [discriminate|eauto]. }
             induction fs as [|f fs IH]; intros a s acc K; cbn in K; [discriminate|].
             destruct (data_size_fragment f a s acc) as [[[a' s'] acc']|u'|] eqn:Ef; cbn in K.
             - eauto.
             - inversion K; subst. eauto.
             - discriminate. }
           apply Hs in Eg. subst. reflexivity.
        -- exfalso. unfold get_data_size in Eg. revert Eg.
           assert (Hs : forall fs a s acc, data_size_fragments fs a s acc <> NoFuel).
           { assert (Hs1 : forall f a s acc, data_size_fragment f a s acc <> NoFuel).
             { induction f as [|x f IH]; intros a s acc; cbn; [discriminate|].
               destruct (a =? 1); [apply IH|]. destruct (s <? 0)%Z; [discriminate|].
               destruct (kTlsHandshakeHeaderLength <? a + 1); [discriminate|apply IH]. }
             induction fs as [|f fs IH]; intros a s acc; cbn; [discriminate|].
             specialize (Hs1 f a s acc).
             destruct (data_size_fragment f a s acc) as [[[a' s'] acc']|u'|]; cbn; [apply IH|discriminate|congruence]. }
           apply Hs.
      * left. rewrite (stale_header _ (hs_frags h) tk); [reflexivity|reflexivity|exact L|apply Hsn; exact Htn].
    + right. rewrite store_header by exact Es. cbn [obind].
      assert (Hb : exists b r, concat (hs_frags h) = b :: r).
      { destruct D4 as [(b & r & E & _)|(_ & L)]; [eauto|].
        destruct (concat (hs_frags h)); [rewrite lenN_nil in L; lia|eauto]. }
      destruct Hb as (b & r & E). destruct (concat_first _ [pt] _ _ E) as (r' & E').
      do 4 eexists. split; [reflexivity|]. split; [exists r, r'; split; [exact E|exact E']|].
      split; [eapply type_of_frags; [apply Hsn; exact Hne|exact E']|].
      split; [|split; [apply tick_ok_pos, tick_ok_frags; exact Ht|split; [exact Hl|right; reflexivity]]].
      split; [cbn; lia|]. split; [discriminate|]. split; [apply Hsn; exact Hne|].
      destruct D4 as [(b0 & r0 & E0 & H24 & H4)|(_ & L)].
      * left. exists b, r'. split; [exact E'|]. rewrite E in E0. inversion E0; subst. auto.
      * right. split; [reflexivity|]. cbn [with_pos with_frags hs_frags]. rewrite concat_snoc, lenN_app. lia.
  - destruct D4 as [(b & r & E & H24 & H4)|(K & _)]; [|discriminate].
    assert (Hst : forall f, store_fragment h f = Done (with_frags h (hs_frags h ++ [f]))).
    { intros f. unfold store_fragment. rewrite Es, (type_of_frags h b r D3 E). cbn [obind].
      unfold kSessionTicketMessageType. destruct (N.eqb_spec b 4); [contradiction|].
      destruct (ignore_future_tickets h); reflexivity. }
    specialize (D2 eq_refl). right.
    destruct (N.leb_spec (hs_data h) (lenN pt)) as [Hle|Hgt]; rewrite Hst; cbn [obind].
    + set (tk := takeN (hs_data h) pt).
      assert (Htn : tk <> []) by (apply takeN_nonempty; [lia|exact Hne]).
      destruct (concat_first _ [tk] _ _ E) as (r' & E').
      do 4 eexists. split; [reflexivity|]. split; [exists r, r'; split; [exact E|exact E']|].
      split; [eapply type_of_frags; [apply Hsn; exact Htn|exact E']|].
      split; [|split; [apply tick_ok_pos, tick_ok_frags; exact Ht|split; [apply Hdr; exact D2|left; auto]]].
      split; [cbn; lia|]. split; [discriminate|]. split; [apply Hsn; exact Htn|]. left. exists b, r'. auto.
    + destruct (concat_first _ [pt] _ _ E) as (r' & E').
      do 4 eexists. split; [reflexivity|]. split; [exists r, r'; split; [exact E|exact E']|].
      split; [eapply type_of_frags; [apply Hsn; exact Hne|exact E']|].
      split; [|split; [apply tick_ok_pos, tick_ok_frags; exact Ht|split; [exact Hl|left; auto]]].
      split; [cbn; lia|]. split; [cbn; lia|]. split; [apply Hsn; exact Hne|]. left. exists b, r'. auto.
Qed.

(* A dead handler stays dead and stores no ticket. *)
Lemma dead_loop : forall fuel h o pt cu ct b r0, (length pt <= fuel)%nat -> dead h -> tick_ok h o ->
  concat (hs_frags h) = b :: r0 ->
  safe (process_loop fuel h pt cu ct) (fun '(h', res) => dead h' /\ tick_ok h' o /\
    (exists r1, concat (hs_frags h') = b :: r1) /\
    (forall r, res = inr r -> r_ticket r = true -> ct = true \/ b = 4)).
Proof.
  induction fuel as [|fuel IH]; intros h o pt cu ct b r0 Hl Hd Ht Eb.
  { destruct pt; [|cbn in Hl; lia]. cbn. split; [exact Hd|]. split; [exact Ht|]. split; [eauto|].
    intros r E. inversion E. cbn. auto. }
  destruct pt as [|z pt].
  { cbn. split; [exact Hd|]. split; [exact Ht|]. split; [eauto|]. intros r E. inversion E. cbn. auto. }
  cbn [process_loop].
  destruct (dead_step h o (z :: pt) Hd Ht) as
    [->|(rest & full & h1 & t & -> & (r2 & r1 & E1 & E2) & Et & Hd1 & Ht1 & Hlt & Hc)];
    [discriminate|reflexivity|].
  rewrite Eb in E1. injection E1. intros _ <-.
  cbn [obind]. rewrite Et. cbn [obind].
  unfold kKeyUpdateMessageType, kSessionTicketMessageType.
  assert (Herr : safe (Done (h1, @inl code hs_result kInternal)) (fun '(h', res) => dead h' /\ tick_ok h' o /\
    (exists r1, concat (hs_frags h') = b :: r1) /\
    (forall r, res = inr r -> r_ticket r = true -> ct = true \/ b = 4))).
  { cbn. split; [exact Hd1|]. split; [exact Ht1|]. split; [eauto|]. discriminate. }
  destruct Hc as [[K24 K4]| ->].
  - destruct (N.eqb_spec b 24); [contradiction|]. destruct (N.eqb_spec b 4); [contradiction|]. exact Herr.
  - destruct (N.eqb_spec b 24) as [E24|E24]; [apply (IH h1 o rest true ct b r1); auto; lia|].
    destruct (N.eqb_spec b 4) as [E4|E4]; [|exact Herr].
    eapply safe_mono; [apply (IH h1 o rest cu true b r1); auto; lia|].
    intros [h' res] (A & B & C & _). auto.
Qed.

(* The rest of the record after a message with an empty body. *)
Lemma zero_loop : forall fuel h o pt cu ct z, (length pt <= fuel)%nat ->
  hs_st h = READ_HEADER -> hs_hdr h = 4 -> Forall (fun f => f <> []) (hs_frags h) ->
  concat (hs_frags h) = z -> hs_zero z -> known z -> tick_ok h o ->
  (4 <= lenN pt /\ process_loop fuel h pt cu ct = Undef UbNegativeShift) \/
  (lenN pt < 4 /\ exists h' r, process_loop fuel h pt cu ct = Done (h', inr r) /\ dead h' /\ tick_ok h' o /\
     (exists q, concat (hs_frags h') = z ++ q) /\
     (r_ticket r = true -> ct = true \/ is_ticket z = true)).
Proof.
  intros fuel h o pt cu ct z Hl Hs Hh Hf Ec Hz Hk Ht.
  destruct Hz as (t & Ez).
  assert (Hd : dead h).
  { split; [lia|]. split; [rewrite Hs; discriminate|]. split; [exact Hf|]. right. split; [exact Hs|].
    rewrite Ec, Ez. cbn. lia. }
  assert (Hend : forall f' h0 a b, process_loop f' h0 [] a b = Done (h0, inr
     {| r_expecting := expecting_more h0; r_key_update := a; r_key_update_type := kInvalidKeyUpdateType;
        r_ticket := b; r_num := hs_num h0 |})) by (intros [|f'] h0 a b; reflexivity).
  destruct pt as [|y pt0].
  { right. split; [reflexivity|]. rewrite Hend. do 2 eexists. split; [reflexivity|].
    split; [exact Hd|]. split; [exact Ht|]. split; [exists []; rewrite app_nil_r; exact Ec|]. cbn. auto. }
  destruct fuel as [|fuel]; [cbn in Hl; lia|].
  remember (y :: pt0) as pt eqn:Ept.
  assert (Hne : pt <> []) by (rewrite Ept; discriminate).
  destruct (N.le_gt_cases 4 (lenN pt)) as [Hle|Hgt].
  - left. split; [exact Hle|].
    assert (Hstep : read_step h pt = Undef UbNegativeShift).
    { unfold read_step. rewrite Hs, Hh. replace (4 <=? lenN pt) with true by (symmetry; apply N.leb_le; exact Hle).
      rewrite store_header by exact Hs. cbn [obind].
      rewrite (stale_header _ (hs_frags h) (takeN 4 pt)); [reflexivity|reflexivity| |].
      - rewrite Ec, Ez. cbn. lia.
      - apply Forall_snoc; [exact Hf|]. apply takeN_nonempty; [lia|exact Hne]. }
    rewrite Ept in *. cbn [process_loop]. rewrite Hstep. reflexivity.
  - right. split; [exact Hgt|].
    destruct (dead_step h o pt Hd Ht Hne) as
      [K|(rest & full & h1 & b & Er & _ & Et & Hd1 & Ht1 & _)].
    { exfalso. revert K. unfold read_step. rewrite Hs, Hh.
      replace (4 <=? lenN pt) with false by (symmetry; apply N.leb_gt; exact Hgt).
      rewrite store_header by exact Hs. discriminate. }
    assert (Hstep : read_step h pt = Done ([], false, with_pos (with_frags h (hs_frags h ++ [pt])) (4 - lenN pt) (hs_data h) READ_HEADER)).
    { unfold read_step. rewrite Hs, Hh. replace (4 <=? lenN pt) with false by (symmetry; apply N.leb_gt; exact Hgt).
      rewrite store_header by exact Hs. reflexivity. }
    rewrite Er in Hstep. inversion Hstep as [[E1 E2 E3]]; clear Hstep.
    assert (Eq : concat (hs_frags h1) = z ++ pt).
    { rewrite E3. cbn [with_pos with_frags hs_frags]. rewrite concat_snoc, Ec. reflexivity. }
    assert (b = t) as ->.
    { assert (Q : get_message_type h1 = Done t).
      { destruct Hd1 as (_ & _ & F & _). eapply type_of_frags; [exact F|]. rewrite Eq, Ez. reflexivity. }
      congruence. }
    clear E3. subst rest full.
    assert (Hpl : process_loop (S fuel) h pt cu ct =
      if t =? 24 then process_loop fuel h1 [] true ct
      else if t =? 4 then process_loop fuel h1 [] cu true else Done (h1, inl kInternal)).
    { rewrite Ept in Er |- *. cbn [process_loop]. rewrite Er. cbn [obind]. rewrite Et. reflexivity. }
    rewrite Hpl, !Hend. destruct Hk as [K|K]; rewrite Ez in K; cbn in K; apply N.eqb_eq in K; subst t; cbn [N.eqb Pos.eqb].
    + do 2 eexists. split; [reflexivity|]. split; [exact Hd1|]. split; [exact Ht1|]. split; [exists pt; exact Eq|].
      intros _. right. rewrite Ez. reflexivity.
    + do 2 eexists. split; [reflexivity|]. split; [exact Hd1|]. split; [exact Ht1|]. split; [exists pt; exact Eq|].
      cbn. auto.
Qed.

(* An error leaves the handler dead. *)
Lemma dead_unknown : forall h o b y b1', hs_inv h o b -> b = y :: b1' -> y <> 24 -> y <> 4 -> dead h.
Proof.
  intros h o b y b1' [Hp _] -> H24 H4. inversion Hp; subst.
  - split; [lia|]. split; [congruence|]. split; [assumption|]. left. eauto.
  - split; [lia|]. split; [intros; lia|]. split; [assumption|]. left.
    exists y. destruct (skips h y); eauto.
Qed.
Lemma dead_full_unknown : forall h y b1', full_ok h (y :: b1') -> y <> 24 -> y <> 4 -> dead h.
Proof.
  intros h y b1' (Hs & Hh & Hf & t & a & b & c & body & E & Hc) H24 H4. inversion E; subst.
  split; [lia|]. split; [congruence|]. split; [exact Hf|]. left. exists t. destruct (skips h t); eauto.
Qed.
Lemma dead_full_update : forall h y b1', full_ok h (y :: b1') -> y = 24 -> dead h.
Proof.
  intros h y b1' (Hs & Hh & Hf & t & a & b & c & body & E & Hc) H24. inversion E; subst.
  split; [lia|]. split; [congruence|]. split; [exact Hf|]. right. split; [exact Hs|].
  rewrite Hc. destruct (skips h 24); rewrite !lenN_cons; lia.
Qed.

Lemma full_concat : forall h y b, full_ok h (y :: b) -> y <> 4 -> concat (hs_frags h) = y :: b.
Proof.
  intros h y b1' (Hs & Hh & Hf & t & a & b & c & body & E & Hc) H4. inversion E; subst.
  rewrite Hc. unfold skips. apply N.eqb_neq in H4. rewrite H4, andb_false_r. reflexivity.
Qed.

Lemma process_loop_spec : forall fuel h o buf pt cu ct,
  (length pt <= fuel)%nat -> hs_inv h o buf -> bytes_ok pt ->
  (buf <> [] -> known buf) ->
  proc_zero o buf pt ct (process_loop fuel h pt cu ct) \/
  proc_ok h o buf pt cu ct (process_loop fuel h pt cu ct) \/
  proc_err o buf pt (process_loop fuel h pt cu ct).
Proof.
  induction fuel as [|fuel IH]; intros h o buf pt cu ct Hfuel Hinv Hb Hkn.
  { destruct pt as [|x pt]; [|cbn in Hfuel; lia].
    right; left. apply proc_end; assumption. }
  destruct pt as [|x pt0]; [right; left; apply proc_end; assumption|].
  remember (x :: pt0) as pt eqn:Ept.
  assert (Hne : pt <> []) by (rewrite Ept; discriminate).
  assert (Hstep : process_loop (S fuel) h pt cu ct =
      obind (read_step h pt) (fun '(rest, full, h1) =>
      obind (get_message_type h1) (fun t =>
        if t =? kKeyUpdateMessageType then
          if full then
            match rest with
            | [] =>
              let ty := get_key_update_type h1 in
              let h2 := with_frags h1 [] in
              Done (h2, inr {| r_expecting := expecting_more h2;
                               r_key_update := true;
                               r_key_update_type := ty;
                               r_ticket := ct;
                               r_num := hs_num h2 |})
            | _ => Done (h1, inl kInternal)
            end
          else process_loop fuel h1 rest true ct
        else if t =? kSessionTicketMessageType then
          if full then
            obind (if ignore_future_tickets h1 then Done h1 else add_ticket h1)
              (fun h2 =>
               process_loop fuel (with_frags h2 []) rest cu true)
          else process_loop fuel h1 rest cu true
        else Done (h1, inl kInternal)))).
  { rewrite Ept. reflexivity. }
  rewrite Hstep. clear Hstep.
  destruct (read_step_spec h o buf pt Hinv Hb Hne) as (taken & rest & Esplit & Htn & Hcases).
  assert (Hbrest : bytes_ok rest).
  { rewrite Esplit in Hb. apply bytes_ok_app in Hb. tauto. }
  assert (Hlen : (length rest <= fuel)%nat).
  { rewrite Esplit, app_length in Hfuel. destruct taken; [contradiction|]. cbn in Hfuel. lia. }
  assert (Eall : buf ++ pt = (buf ++ taken) ++ rest) by (rewrite Esplit, app_assoc; reflexivity).
  remember (buf ++ taken) as b1 eqn:Eb1.
  assert (Hb1 : b1 <> []) by (rewrite Eb1; apply app_ne_r; exact Htn).
  destruct b1 as [|y b1']; [contradiction|].
  assert (Hty : forall t, has_type t (y :: b1') = (y =? t)) by reflexivity.
  assert (Hzero : forall res ct', (ct' = true -> ct = true \/ is_ticket (y :: b1') = true) ->
    proc_zero o (y :: b1') rest ct' res -> proc_zero o buf pt ct res).
  { intros res ct' Hct (ms & z & rest' & Z1 & Z2 & Z3 & Z4 & Z5 & Z6). exists ms, z, rest'. rewrite Eall.
    split; [exact Z1|]. split; [exact Z2|]. split; [exact Z3|]. split; [exact Z4|]. split; [exact Z5|].
    destruct Z6 as [Z6|(L & h' & r & R1 & R2 & R3 & R4 & R5)]; [left; exact Z6|right]. split; [exact L|].
    exists h', r. split; [exact R1|]. split; [exact R2|]. split; [exact R3|]. split; [exact R4|].
    intros K. destruct (R5 K) as [K'|K']; [|auto]. destruct (Hct K') as [K2|K2]; [auto|]. right.
    pose proof (first_type 4 (y :: b1') rest ms (z ++ rest') Hb1 Z1 Z2 K2) as F.
    rewrite existsb_app in F |- *. cbn [existsb] in F |- *.
    rewrite has_type_app in F by (destruct Z4 as (? & ->); discriminate). exact F. }
  assert (Herr : forall res, proc_err o (y :: b1') rest res -> proc_err o buf pt res).
  { intros res (h' & ms & m & rest' & R1 & R2 & R3). exists h', ms, m, rest'. rewrite Eall. auto. }
  destruct Hcases as [(h1 & Er & Hz & Z1 & Z2 & Z3 & Z4 & Z5) | [(h1 & Er & Hinv1) | (h1 & Er & Hmsg & Hfull & Htick)]].
  { rewrite Er. cbn [obind]. rewrite (type_of_frags h1 y b1' Z3 Z4). cbn [obind].
    unfold kKeyUpdateMessageType, kSessionTicketMessageType.
    assert (Hgo : known (y :: b1') -> forall cu' ct', (ct' = true -> ct = true \/ is_ticket (y :: b1') = true) ->
      proc_zero o buf pt ct (process_loop fuel h1 rest cu' ct')).
    { intros Hk cu' ct' Hct. exists [], (y :: b1'), rest. rewrite Eall. split; [reflexivity|].
      split; [constructor|]. split; [constructor|]. split; [exact Hz|]. split; [exact Hk|].
      destruct (zero_loop fuel h1 o rest cu' ct' _ Hlen Z1 Z2 Z3 Z4 Hz Hk Z5) as [A|(L & h' & r & A1 & A2 & A3 & A4 & A5)];
        [left; exact A|right]. split; [exact L|]. exists h', r. split; [exact A1|]. split; [exact A2|].
      split; [exact A3|]. split; [exact A4|]. intros K. cbn [app existsb]. rewrite orb_false_r.
      destruct (A5 K) as [K'|K']; [apply Hct; exact K'|right; exact K']. }
    destruct (N.eqb_spec y 24) as [E24|E24]; [|destruct (N.eqb_spec y 4) as [E4|E4]].
    - left. apply Hgo; [right; subst y; reflexivity|auto].
    - left. apply Hgo; [left; subst y; reflexivity|]. intros _. right; subst y; reflexivity.
    - right; right. exists h1, [], (y :: b1'), rest.
      split; [reflexivity|]. split; [exact Eall|]. split; [constructor|]. split; [constructor|].
      split; [left; split; [discriminate|]; intros [K|K]; cbn in K; lia|].
      split; [|exact Z5]. split; [lia|]. split; [rewrite Z1; discriminate|]. split; [exact Z3|].
      left. exists y, b1'. auto. }
  - (* partial *)
    rewrite Er. cbn [obind].
    rewrite (pos_type h1 y b1' (proj1 Hinv1)). cbn [obind].
    unfold kKeyUpdateMessageType, kSessionTicketMessageType.
    destruct (N.eqb_spec y 24) as [E24|E24]; [|destruct (N.eqb_spec y 4) as [E4|E4]].
    + assert (Hk1 : known (y :: b1')) by (right; subst y; reflexivity).
      destruct (IH h1 o (y :: b1') rest true ct Hlen Hinv1 Hbrest (fun _ => Hk1)) as [Hz|[Hok|He]].
      * left. apply (Hzero _ ct); [auto|exact Hz].
      * right; left. rewrite Esplit. rewrite Eb1 in *.
        eapply proc_partial; try eassumption.
        -- unfold is_key_update. rewrite Hty, E24, orb_true_r. reflexivity.
        -- unfold is_ticket. rewrite Hty, E24, orb_false_r. reflexivity.
      * right; right. apply Herr; exact He.
    + assert (Hk1 : known (y :: b1')) by (left; subst y; reflexivity).
      destruct (IH h1 o (y :: b1') rest cu true Hlen Hinv1 Hbrest (fun _ => Hk1)) as [Hz|[Hok|He]].
      * left. apply (Hzero _ true); [intros _; right; subst y; reflexivity|exact Hz].
      * right; left. rewrite Esplit. rewrite Eb1 in *.
        eapply proc_partial; try eassumption.
        -- unfold is_key_update. rewrite Hty, E4, orb_false_r. reflexivity.
        -- unfold is_ticket. rewrite Hty, E4, orb_true_r. reflexivity.
      * right; right. apply Herr; exact He.
    + right; right. exists h1, [], (y :: b1'), rest.
      split; [reflexivity|]. split; [exact Eall|]. split; [constructor|]. split; [constructor|].
      split; [left; split; [discriminate|]; intros [K|K]; cbn in K; lia|].
      split; [eapply dead_unknown; eauto|exact (proj2 Hinv1)].
  - rewrite Er. cbn [obind].
    rewrite (full_type h1 y b1' Hfull). cbn [obind].
    unfold kKeyUpdateMessageType, kSessionTicketMessageType.
    destruct (N.eqb_spec y 24) as [E24|E24]; [|destruct (N.eqb_spec y 4) as [E4|E4]].
    + destruct rest as [|z rest0].
      * right; left. cbv zeta. eexists (with_frags h1 []), _, [y :: b1'], [].
        split; [reflexivity|]. rewrite Eall.
        cbn [concat]. split; [rewrite !app_nil_r; reflexivity|].
        split; [constructor; [exact Hmsg|constructor]|].
        split; [constructor; [right; subst y; reflexivity|constructor]|].
        split; [intros K; contradiction|].
        cbn [store_all fold_left]. rewrite step_store_not_ticket by (subst y; reflexivity).
        split; [split; [eapply full_reset; eassumption|apply tick_ok_frags; exact Htick]|].
        split; [cbn; auto|].
        split; [reflexivity|].
        assert (Hem : empty pt = false) by (rewrite Ept; reflexivity).
        assert (Hup : get_key_update_type h1 = update_type [y :: b1']).
        { unfold get_key_update_type. rewrite (full_concat h1 y b1' Hfull) by lia. cbn [update_type]. unfold is_key_update.
          rewrite Hty. replace (y =? 24) with true by (symmetry; apply N.eqb_eq; exact E24).
          destruct Hmsg as (t & a & b & c & body & Em & _ & _ & Hbody). rewrite Em. destruct body as [|z body]; [contradiction|reflexivity]. }
        cbn [r_key_update r_key_update_type r_ticket r_num]. rewrite Hem, Hup. subst y. cbn [orb negb andb app existsb].
        change (is_key_update (24 :: b1')) with true. change (is_ticket (24 :: b1')) with false. cbn [orb].
        change (is_ticket []) with false.
        rewrite orb_true_r, orb_false_r. auto.
      * right; right. exists h1, [], (y :: b1'), (z :: rest0).
        split; [reflexivity|]. split; [exact Eall|]. split; [constructor|]. split; [constructor|].
        split; [right; split; [exact Hmsg|]; split; [subst y; reflexivity|discriminate]|].
        split; [eapply dead_full_update; eauto|exact Htick].
    + assert (Hk1 : known (y :: b1')) by (left; subst y; reflexivity).
      assert (Hadd : exists h2,
         (if ignore_future_tickets h1 then Done h1 else add_ticket h1) = Done h2 /\
         hs_inv (with_frags h2 []) (step_store o (y :: b1')) []).
      { rewrite (tick_ignore _ _ Htick).
        destruct o as [l|].
        - cbn [step_store]. assert (It : is_ticket (y :: b1') = true) by (subst y; reflexivity).
          rewrite It. cbn [andb].
          destruct (N.leb_spec 5 (lenN l)) as [H5|H5].
          + exists h1. split; [reflexivity|].
            replace (lenN l <? 5) with false by (symmetry; apply N.ltb_ge; exact H5).
            split; [eapply full_reset; eassumption|apply tick_ok_frags; exact Htick].
          + replace (lenN l <? 5) with true by (symmetry; apply N.ltb_lt; exact H5).
            destruct Htick as (ts & T1 & T2 & T3 & T4 & T5).
            unfold add_ticket. rewrite T1. eexists; split; [reflexivity|].
            destruct Hfull as (F1 & F2 & F3 & t & a & b & c & body & F4 & F5).
            assert (Hsk : skips h1 t = false).
            { unfold skips, ignore_future_tickets, kMaxNumTicketsToProcess.
              rewrite T5, T3. replace (5 <=? lenN l) with false
                by (symmetry; apply N.leb_gt; exact H5). reflexivity. }
            rewrite Hsk in F5. split.
            * apply PosHeader; cbn; auto; try lia. constructor.
            * exists (ts ++ [hs_frags h1]). cbn [with_frags hs_tickets hs_num hs_retrieved].
              split; [reflexivity|]. split.
              { rewrite <- T2, <- F5. exact (map_app (@concat N) ts [hs_frags h1]). }
              rewrite T3, lenN_app, lenN_cons, lenN_nil.
              split; [apply wrap64_small; unfold two64; lia|]. split; [lia|exact T5].
        - exists h1. split; [reflexivity|].
          split; [eapply full_reset; eassumption|apply tick_ok_frags; exact Htick]. }
      destruct Hadd as (h2 & Eadd & Hinv2). rewrite Eadd. cbn [obind].
      destruct (IH (with_frags h2 []) (step_store o (y :: b1')) [] rest cu true Hlen Hinv2 Hbrest
                 (fun K => False_ind _ (K eq_refl))) as [Hz|[Hok|He]].
      * left. destruct Hz as (ms & z & rest' & Z1 & Z2 & Z3 & Z4).
        exists ((y :: b1') :: ms), z, rest'. rewrite Eall. cbn [app concat] in *.
        split; [rewrite Z1, <- app_assoc; reflexivity|].
        split; [constructor; assumption|].
        split; [constructor; [subst y; reflexivity|assumption]|].
        destruct Z4 as (Z5 & Z6 & Z7). split; [exact Z5|]. split; [exact Z6|].
        destruct Z7 as [Z7|(L & h' & r & A1 & A2 & A3 & A4 & _)]; [left; exact Z7|right].
        split; [exact L|]. exists h', r. split; [exact A1|]. split; [exact A2|]. split; [exact A3|].
        split; [exact A4|]. intros _. right. cbn [app existsb]. subst y. reflexivity.
      * right; left. rewrite Esplit. rewrite Eb1 in *.
        eapply proc_ticket; try eassumption.
        -- unfold is_ticket; rewrite Hty, E4; reflexivity.
        -- unfold is_key_update; rewrite Hty, E4; reflexivity.
      * right; right. destruct He as (h' & ms & m & rest' & R1 & R2 & R3 & R4 & R5).
        exists h', ((y :: b1') :: ms), m, rest'. split; [exact R1|].
        rewrite Eall. cbn [app concat] in *. rewrite R2.
        split; [rewrite <- app_assoc; reflexivity|].
        split; [constructor; assumption|].
        split; [constructor; [subst y; reflexivity|assumption]|]. exact R5.
    + right; right. exists h1, [], (y :: b1'), rest.
      split; [reflexivity|]. split; [exact Eall|]. split; [constructor|]. split; [constructor|].
      split; [left; split; [discriminate|]; intros [K|K]; cbn in K; lia|].
      split; [eapply dead_full_unknown; eauto|exact Htick].
Qed.

Lemma process_handshake_message_spec : forall h o buf pt,
  hs_inv h o buf -> bytes_ok pt -> (buf <> [] -> known buf) ->
  proc_zero o buf pt false (process_handshake_message h pt) \/
  proc_ok h o buf pt false false (process_handshake_message h pt) \/
  proc_err o buf pt (process_handshake_message h pt).
Proof.
  intros; unfold process_handshake_message; apply process_loop_spec; auto.
Qed.

Lemma get_stored_tickets_spec : forall h o buf, hs_inv h o buf ->
  match o with
  | None => get_stored_tickets h = Done (h, inl kInternal)
  | Some l =>
    if is_ticket buf then get_stored_tickets h = Done (h, inl kInternal)
    else exists h' ts, get_stored_tickets h = Done (h', inr ts) /\
           map (@concat N) ts = l /\ hs_inv h' None buf
  end.
Proof.
  intros h o buf [Hp Ht]. destruct o as [l|].
  - destruct Ht as (ts & T1 & T2 & T3 & T4 & T5).
    unfold get_stored_tickets. rewrite T5, T1.
    rewrite (pos_expecting _ _ Hp).
    assert (Hmove : is_ticket buf = false ->
      hs_inv {| hs_frags := hs_frags h; hs_tickets := None; hs_num := 0;
               hs_retrieved := true; hs_data := hs_data h; hs_hdr := hs_hdr h;
               hs_st := hs_st h |} None buf).
    { intros Hnt. split; [|repeat split].
      inversion Hp; subst.
      - apply PosHeader; auto.
      - apply PosData; auto. cbn [hs_frags].
        unfold is_ticket in Hnt; cbn [has_type] in Hnt.
        unfold skips in *. rewrite Hnt, andb_false_r in *. assumption. }
    destruct buf as [|x buf0].
    + cbn [empty negb]. change (is_ticket []) with false. cbv iota.
      do 2 eexists; split; [reflexivity|]. auto.
    + cbn [empty negb]. rewrite (pos_type _ _ _ Hp). cbn [obind].
      change (is_ticket (x :: buf0)) with (x =? 4).
      unfold kSessionTicketMessageType. destruct (x =? 4) eqn:E4; [reflexivity|].
      do 2 eexists; split; [reflexivity|]. split; [exact T2|]. apply Hmove. exact E4.
  - destruct Ht as (T1 & T2 & T3). unfold get_stored_tickets. rewrite T3. reflexivity.
Qed.

Lemma firstn_snoc_lt : forall (A : Type) n (l : list A) x, (length l < n)%nat ->
  firstn n (l ++ [x]) = l ++ [x].
Proof. intros; apply firstn_all2; rewrite app_length; cbn; lia. Qed.

Lemma store_all_app : forall ms1 ms2 o,
  store_all o (ms1 ++ ms2) = store_all (store_all o ms1) ms2.
Proof. intros; apply fold_left_app. Qed.

Lemma store_all_none : forall ms, store_all None ms = None.
Proof. induction ms; [reflexivity|exact IHms]. Qed.

Lemma store_all_firstn : forall ms,
  store_all (Some []) ms = Some (firstn 5 (filter is_ticket ms)).
Proof.
  induction ms as [|m ms IH] using rev_ind; [reflexivity|].
  rewrite store_all_app, IH, filter_app. cbn [store_all fold_left step_store filter].
  unfold lenN. rewrite firstn_length.
  destruct (is_ticket m); cbn [andb]; [|rewrite app_nil_r; reflexivity].
  destruct (N.ltb_spec (N.of_nat (Nat.min 5 (length (filter is_ticket ms)))) 5) as [H|H].
  - rewrite firstn_all2 by lia. rewrite firstn_all2; [reflexivity|].
    rewrite app_length; cbn [length]; lia.
  - rewrite firstn_app. replace (5 - length (filter is_ticket ms))%nat with 0%nat by lia.
    cbn [firstn]. rewrite app_nil_r. reflexivity.
Qed.
