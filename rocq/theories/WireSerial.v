(* The parser of fields (Wire.v) against the encoding (SpecProto.v). *)
From Coq Require Import List NArith ZArith Bool Lia ZifyBool ZifyNat ZifyN.
From Verif Require Import Base BaseProofs Wire WireProofs SpecProto.
Import ListNotations.
Local Open Scope N_scope.
Ltac Zify.zify_post_hook ::= Z.div_mod_to_equations.

Lemma unvarint_iff : forall k bs n r,
  unvarint k bs = Some (n, r) <-> exists b, bs = b ++ r /\ base128 b n /\ (length b <= k)%nat.
Proof.
  induction k as [|k IH]; intros bs n r; split.
  - cbn. discriminate.
  - intros (b & _ & H & L). inversion H; subst; cbn in L; lia.
  - cbn [unvarint]. destruct bs as [|x bs]; [discriminate|]. destruct (N.ltb_spec x 128) as [E|E].
    + intros H. injection H as <- <-. exists [x]. repeat split; [constructor; exact E|cbn; lia].
    + destruct (unvarint k bs) as [[m r']|] eqn:U; [|discriminate]. intros H. injection H as <- <-.
      apply IH in U. destruct U as (b & -> & B & L). exists (x :: b). repeat split; [constructor; assumption|cbn; lia].
  - intros (b & -> & B & L). inversion B; subst; cbn [app unvarint length] in *.
    + destruct (N.ltb_spec n 128); [reflexivity|lia].
    + match goal with |- (if ?c then _ else _) = _ => destruct c eqn:E end; [apply N.ltb_lt in E; lia|].
      match goal with Q : base128 ?l ?m |- _ => assert (U : unvarint k (l ++ r) = Some (m, r)) by (apply IH; exists l; repeat split; [exact Q|lia]) end.
      rewrite U. reflexivity.
Qed.

Lemma dec_varint_iff : forall bs n r, dec_varint bs = Some (n, r) <-> exists b, bs = b ++ r /\ number b n.
Proof.
  intros bs n r. unfold dec_varint. split.
  - destruct (unvarint 10 bs) as [[k r']|] eqn:U; [|discriminate]. intros H. injection H as <- <-.
    apply unvarint_iff in U. destruct U as (b & -> & B & L). exists b. split; [reflexivity|]. exists k. repeat split; [exact B|unfold lenN; lia].
  - intros (b & -> & k & B & L & ->). assert (U : unvarint 10 (b ++ r) = Some (k, r)).
    { apply unvarint_iff. exists b. repeat split; [exact B|unfold lenN in L; lia]. }
    rewrite U. reflexivity.
Qed.

Lemma number_small : forall b n, number b n -> n < 18446744073709551616.
Proof. intros b n (k & _ & _ & ->). apply N.mod_lt. discriminate. Qed.

Lemma dec_tag_iff : forall bs num w r, dec_tag bs = Some (num, w, r) <-> exists b, bs = b ++ r /\ tag b num w.
Proof.
  intros bs num w r. unfold dec_tag, tag. split.
  - destruct (dec_varint bs) as [[t x]|] eqn:D; [|discriminate]. unfold two32.
    destruct ((t <? 4294967296) && negb (t / 8 =? 0)) eqn:E; [|discriminate]. intros H. injection H as <- <- <-.
    apply dec_varint_iff in D. destruct D as (b & -> & D). exists b. split; [reflexivity|].
    replace (8 * (t / 8) + t mod 8) with t by lia. repeat split; [lia|lia|lia|exact D].
  - intros (b & -> & H1 & H2 & H3 & H4).
    assert (D : dec_varint (b ++ r) = Some (8 * num + w, r)) by (apply dec_varint_iff; eauto). rewrite D.
    replace ((8 * num + w) / 8) with num by lia. replace ((8 * num + w) mod 8) with w by lia. unfold two32.
    replace (8 * num + w <? 4294967296) with true by lia. replace (num =? 0) with false by lia. reflexivity.
Qed.

Lemma split_bytes_iff : forall n bs b r, split_bytes n bs = Some (b, r) <-> bs = b ++ r /\ lenN b = n.
Proof.
  intros n bs b r. split.
  - unfold split_bytes. destruct (N.leb_spec n (lenN bs)) as [L|]; [|discriminate]. intros H. injection H as <- <-.
    split; [unfold takeN, dropN; symmetry; apply firstn_skipn|]. unfold lenN, takeN in *. rewrite firstn_length. lia.
  - intros [-> <-]. apply split_bytes_app.
Qed.

Lemma dec_value_iff : forall w bs v r, dec_value w bs = Some (v, r) <-> exists b, bs = b ++ r /\ value w b v.
Proof.
  intros w bs v r. split.
  - intros H. unfold dec_value in H.
    destruct w as [|[[[p|p|]|[p|p|]|]|[p|p|]|]]; try discriminate.
    + destruct (dec_varint bs) as [[n x]|] eqn:D; [|discriminate]. injection H as <- <-. apply dec_varint_iff in D.
      destruct D as (b & -> & D). exists b. split; [reflexivity|]. constructor. exact D.
    + destruct (split_bytes 4 bs) as [[b x]|] eqn:D; [|discriminate]. injection H as <- <-. apply split_bytes_iff in D.
      destruct D as [-> D]. exists b. split; [reflexivity|]. constructor. exact D.
    + destruct (dec_varint bs) as [[n x]|] eqn:D; [|discriminate]. apply dec_varint_iff in D. destruct D as (l & -> & D).
      destruct (N.leb_spec int32_max n) as [|L]; [discriminate|].
      destruct (split_bytes n x) as [[b y]|] eqn:S; [|discriminate]. injection H as <- <-. apply split_bytes_iff in S.
      destruct S as [-> <-]. exists (l ++ b). split; [apply app_assoc|]. constructor; [exact D|exact L].
    + destruct (split_bytes 8 bs) as [[b x]|] eqn:D; [|discriminate]. injection H as <- <-. apply split_bytes_iff in D.
      destruct D as [-> D]. exists b. split; [reflexivity|]. constructor. exact D.
  - intros (b & -> & H). destruct H as [b n H|b H|l b H L|b H]; unfold dec_value.
    + assert (D : dec_varint (b ++ r) = Some (n, r)) by (apply dec_varint_iff; eauto). rewrite D. reflexivity.
    + rewrite <- H. rewrite split_bytes_app. reflexivity.
    + assert (D : dec_varint ((l ++ b) ++ r) = Some (lenN b, b ++ r)) by (apply dec_varint_iff; exists l; split; [symmetry; apply app_assoc|exact H]).
      rewrite D. unfold int32_max. destruct (N.leb_spec 2147483647 (lenN b)); [lia|]. rewrite split_bytes_app. reflexivity.
    + rewrite <- H. rewrite split_bytes_app. reflexivity.
Qed.

Lemma value_kind : forall w b v, value w b v -> w <> 3 /\ w <> 4.
Proof. intros w b v H. destruct H; split; discriminate. Qed.

Lemma tag_nonempty : forall b num w, tag b num w -> b <> [].
Proof. intros b num w (_ & _ & _ & k & B & _) ->. inversion B. Qed.

Lemma fields_serial : forall f g bs fs r, fields f g bs = Some (fs, r) ->
  exists body, serial body fs /\
    match g with
    | None => bs = body /\ r = []
    | Some num => exists e, tag e num 4 /\ bs = body ++ e ++ r
    end.
Proof.
  induction f as [|f IH]; intros g bs fs r H; [discriminate|]. cbn [fields] in H.
  destruct bs as [|x bs].
  { destruct g; [discriminate|]. injection H as <- <-. exists []. split; [constructor|auto]. }
  remember (x :: bs) as l. destruct (dec_tag l) as [[[num w] y]|] eqn:T; [|discriminate].
  apply dec_tag_iff in T. destruct T as (t & El & T). rewrite El. clear El Heql.
  destruct (N.eqb_spec w 3) as [->|N3].
  - destruct (fields f (Some num) y) as [[sk z]|] eqn:E1; [|discriminate].
    apply IH in E1. destruct E1 as (b1 & S1 & e1 & T1 & ->).
    apply IH in H. destruct H as (b2 & S2 & H). exists (t ++ b1 ++ e1 ++ b2). split; [econstructor; eassumption|].
    destruct g as [g|].
    + destruct H as (e2 & T2 & ->). exists e2. split; [exact T2|]. rewrite <- !app_assoc. reflexivity.
    + destruct H as [-> ->]. auto.
  - destruct (N.eqb_spec w 4) as [->|N4].
    + destruct g as [g|]; [|discriminate]. destruct (N.eqb_spec g num) as [->|]; [|discriminate].
      injection H as <- <-. exists []. split; [constructor|]. exists t. auto.
    + destruct (dec_value w y) as [[v z]|] eqn:E1; [|discriminate]. apply dec_value_iff in E1. destruct E1 as (b & -> & Hv).
      destruct (fields f g z) as [[fs2 u]|] eqn:E2; [|discriminate]. injection H as <- <-.
      apply IH in E2. destruct E2 as (b2 & S2 & H). exists (t ++ b ++ b2). split; [econstructor; eassumption|].
      destruct g as [g|].
      * destruct H as (e2 & T2 & ->). exists e2. split; [exact T2|]. rewrite <- !app_assoc. reflexivity.
      * destruct H as [-> ->]. auto.
Qed.

(* Enough fuel. *)
Definition fields' (g : option N) (bs : bytes) : option (list wfield * bytes) := fields (S (length bs)) g bs.
Lemma fields_any : forall f g bs, (length bs < f)%nat -> fields f g bs = fields' g bs.
Proof. intros f g bs H. apply fields_fuel; lia. Qed.

Lemma fields'_step : forall g t num w r, tag t num w -> fields' g (t ++ r) =
  if w =? 3 then match fields' (Some num) r with Some (_, r') => fields' g r' | None => None end
  else if w =? 4 then match g with Some g => if g =? num then Some ([], r) else None | None => None end
  else match dec_value w r with
       | Some (v, r') => match fields' g r' with Some (fs, r'') => Some ((num, v) :: fs, r'') | None => None end
       | None => None end.
Proof.
  intros g t num w r T. unfold fields' at 1. cbn [fields].
  assert (D : dec_tag (t ++ r) = Some (num, w, r)) by (apply dec_tag_iff; eauto).
  pose proof (dec_tag_shorter _ _ _ _ D) as L.
  destruct (t ++ r) as [|x l] eqn:El; [cbn in L; lia|]. rewrite D. cbn [length] in *.
  destruct (w =? 3).
  - rewrite fields_any by (cbn [length]; lia). destruct (fields' (Some num) r) as [[fs1 y]|] eqn:E1; [|reflexivity].
    apply fields_shorter in E1. apply fields_any. lia.
  - destruct (w =? 4); [reflexivity|]. destruct (dec_value w r) as [[v y]|] eqn:E1; [|reflexivity].
    apply dec_value_shorter in E1. rewrite fields_any by lia. reflexivity.
Qed.

Lemma serial_fields : forall body fs, serial body fs -> forall g rest,
  fields' g (body ++ rest) = match fields' g rest with Some (fs', r) => Some (fs ++ fs', r) | None => None end.
Proof.
  induction 1 as [|t num w b v rest fs T Hv S IH|t num body sk e rest fs T S1 IH1 T2 S2 IH2]; intros g tail.
  - cbn [app]. destruct (fields' g tail) as [[fs' r]|]; reflexivity.
  - rewrite <- !app_assoc. rewrite (fields'_step _ _ _ _ _ T). destruct (value_kind _ _ _ Hv) as [N3 N4].
    destruct (N.eqb_spec w 3); [contradiction|]. destruct (N.eqb_spec w 4); [contradiction|].
    assert (D : dec_value w (b ++ rest ++ tail) = Some (v, rest ++ tail)) by (apply dec_value_iff; eauto).
    rewrite D, IH. destruct (fields' g tail) as [[fs' r]|]; reflexivity.
  - rewrite <- !app_assoc. rewrite (fields'_step _ _ _ _ _ T), N.eqb_refl, IH1, (fields'_step _ _ _ _ _ T2). cbn [N.eqb Pos.eqb].
    rewrite N.eqb_refl. apply IH2.
Qed.

Lemma dec_fields_iff : forall bs fs, dec_fields bs = Some fs <-> serial bs fs.
Proof.
  intros bs fs. split; intros H.
  - unfold dec_fields in H. destruct (fields (S (length bs)) None bs) as [[fs' r]|] eqn:E; [|discriminate]. injection H as <-.
    apply fields_serial in E. destruct E as (body & S & -> & _). exact S.
  - pose proof (serial_fields _ _ H None []) as E. rewrite app_nil_r in E. unfold dec_fields. fold (fields' None bs). rewrite E.
    cbn. rewrite app_nil_r. reflexivity.
Qed.

Lemma serial_det : forall b x y, serial b x -> serial b y -> x = y.
Proof. intros b x y H K. apply dec_fields_iff in H. apply dec_fields_iff in K. congruence. Qed.

(* ---- packed enumerations ---- *)
Lemma number_nonempty : forall b n r, number b n -> b ++ r <> [].
Proof. intros b n r (k & B & _). inversion B; discriminate. Qed.

Lemma unpack_packed : forall f bs l, unpack f bs = Some l -> packed bs l.
Proof.
  induction f as [|f IH]; intros bs l H; [discriminate|]. cbn [unpack] in H.
  destruct bs as [|x bs]; [injection H as <-; constructor|]. remember (x :: bs) as y.
  destruct (dec_varint y) as [[n r]|] eqn:D; [|discriminate]. apply dec_varint_iff in D. destruct D as (b & -> & D).
  destruct (unpack f r) as [l'|] eqn:U; [|discriminate]. injection H as <-. apply (PackedCons _ _ _ _ D). apply IH. exact U.
Qed.
Lemma packed_unpack : forall bs l, packed bs l -> forall f, (length bs < f)%nat -> unpack f bs = Some l.
Proof.
  induction 1 as [|b n r l Hn P IH]; intros f L.
  - destruct f; [lia|]. reflexivity.
  - destruct f as [|f]; [lia|]. cbn [unpack]. assert (D : dec_varint (b ++ r) = Some (n, r)) by (apply dec_varint_iff; eauto).
    pose proof (dec_varint_shorter _ _ _ D). destruct (b ++ r) as [|x y] eqn:E; [exfalso; exact (number_nonempty _ _ _ Hn E)|]. rewrite D.
    rewrite IH by lia. reflexivity.
Qed.
Lemma unpack_iff : forall bs l, unpack (S (length bs)) bs = Some l <-> packed bs l.
Proof. intros bs l. split; [apply unpack_packed|]. intros P. apply (packed_unpack _ _ P). lia. Qed.
