(* Lemmas about the wire format: whatever is serialized is parsed back. *)
From Coq Require Import List NArith ZArith Bool Lia ZifyBool ZifyNat ZifyN.
From Verif Require Import Base BaseProofs Wire.
Import ListNotations.
Local Open Scope N_scope.
Ltac Zify.zify_post_hook ::= Z.div_mod_to_equations.

(* ---- varints ---- *)
Fixpoint pow128 (k : nat) : N := match k with O => 1 | S k' => 128 * pow128 k' end.

Lemma unvarint_varint : forall k n r, n < pow128 (S k) -> unvarint (S k) (varint (S k) n ++ r) = Some (n, r).
Proof.
  induction k as [|k IH]; intros n r H.
  - cbn in H. cbn [varint]. replace (n <? 128) with true by lia. cbn [app unvarint]. replace (n <? 128) with true by lia. reflexivity.
  - change (varint (S (S k)) n) with (if n <? 128 then [n] else (n mod 128 + 128) :: varint (S k) (n / 128)).
    change (pow128 (S (S k))) with (128 * pow128 (S k)) in H. remember (S k) as k'.
    destruct (n <? 128) eqn:E; cbn [app unvarint]; [rewrite E; reflexivity|].
    replace (n mod 128 + 128 <? 128) with false by lia.
    rewrite IH by lia. f_equal. f_equal. lia.
Qed.

Lemma varint_len : forall k n, (length (varint k n) <= k)%nat.
Proof. induction k; intros; cbn [varint]; [reflexivity|]. destruct (n <? 128); cbn [length]; [lia|]. specialize (IHk (n / 128)). lia. Qed.

Lemma enc_varint_nonempty : forall n r, enc_varint n ++ r <> [].
Proof. intros n r. unfold enc_varint. cbn [varint]. destruct (n <? 128); discriminate. Qed.

Lemma enc_varint_pos : forall n, 1 <= lenN (enc_varint n).
Proof. intros n. pose proof (enc_varint_nonempty n []) as H. rewrite app_nil_r in H. destruct (enc_varint n); [congruence|]. rewrite lenN_cons. lia. Qed.

Lemma dec_enc_varint : forall n r, n < two64 -> dec_varint (enc_varint n ++ r) = Some (n, r).
Proof.
  intros n r H. unfold dec_varint, enc_varint. rewrite unvarint_varint.
  - rewrite wrap64_small by exact H. reflexivity.
  - eapply N.lt_trans; [exact H|]. vm_compute. reflexivity.
Qed.

Lemma varint_bytes_ok : forall k n, bytes_ok (varint k n).
Proof.
  induction k; intros n; cbn [varint]; [constructor|].
  destruct (n <? 128) eqn:E; constructor; try (unfold byte_ok; lia); try constructor. apply IHk.
Qed.

(* ---- one field ---- *)
Definition wfield_ok (f : wfield) : Prop :=
  0 < fst f < 536870912 /\
  match snd f with
  | WVarint n => n < two64
  | WLen b => lenN b < int32_max
  | WFixed64 b => lenN b = 8
  | WFixed32 b => lenN b = 4
  end.

Lemma dec_tag_enc : forall num wt r, 0 < num < 536870912 -> wt < 8 ->
  dec_tag (enc_varint (8 * num + wt) ++ r) = Some (num, wt, r).
Proof.
  intros num wt r H W. unfold dec_tag. rewrite dec_enc_varint by (unfold two64; lia).
  replace ((8 * num + wt) / 8) with num by lia. replace ((8 * num + wt) mod 8) with wt by lia.
  replace (8 * num + wt <? two32) with true by (unfold two32; lia). replace (num =? 0) with false by lia. reflexivity.
Qed.

Lemma split_bytes_app : forall b r, split_bytes (lenN b) (b ++ r) = Some (b, r).
Proof.
  intros b r. unfold split_bytes. rewrite lenN_app. replace (lenN b <=? lenN b + lenN r) with true by lia.
  unfold bytes in *. rewrite takeN_app_exact, dropN_app_exact. reflexivity.
Qed.

Lemma fields_field : forall f fd r, wfield_ok fd ->
  fields (S f) None (enc_field fd ++ r) =
  match fields f None r with Some (fs, r') => Some (fd :: fs, r') | None => None end.
Proof.
  intros f [num v] r [Hn Hv]. cbn [fst snd] in *.
  assert (G : forall wt p, wt < 8 -> wt <> 3 -> wt <> 4 -> enc_field (num, v) = enc_varint (8 * num + wt) ++ p ->
    dec_value wt (p ++ r) = Some (v, r) ->
    fields (S f) None (enc_field (num, v) ++ r) =
    match fields f None r with Some (fs, r') => Some ((num, v) :: fs, r') | None => None end).
  { intros wt p Hw H3 H4 E D. rewrite E, <- app_assoc. cbn [fields].
    destruct (enc_varint (8 * num + wt) ++ p ++ r) eqn:X; [exfalso; eapply enc_varint_nonempty; exact X|]. rewrite <- X.
    rewrite dec_tag_enc by assumption. replace (wt =? 3) with false by lia. replace (wt =? 4) with false by lia.
    rewrite D. reflexivity. }
  destruct v as [n|b|b|b].
  - apply (G 0 (enc_varint n)); try lia; [cbn [enc_field]; rewrite N.add_0_r; reflexivity|].
    cbn [dec_value]. rewrite dec_enc_varint by assumption. reflexivity.
  - apply (G 1 b); try lia; [reflexivity|]. cbn [dec_value]. rewrite <- Hv, split_bytes_app. reflexivity.
  - apply (G 2 (enc_varint (lenN b) ++ b)); try lia; [reflexivity|]. cbn [dec_value]. rewrite <- app_assoc.
    rewrite dec_enc_varint by (unfold int32_max, two64 in *; lia).
    replace (int32_max <=? lenN b) with false by lia. rewrite split_bytes_app. reflexivity.
  - apply (G 5 b); try lia; [reflexivity|]. cbn [dec_value]. rewrite <- Hv, split_bytes_app. reflexivity.
Qed.

Lemma enc_field_pos : forall f, 1 <= lenN (enc_field f).
Proof.
  intros [num [n|b|b|b]]; cbn [enc_field]; rewrite lenN_app;
    match goal with |- context [enc_varint ?x] => pose proof (enc_varint_pos x) end; lia.
Qed.

Lemma fields_enc : forall fs f, Forall wfield_ok fs -> (length (enc_fields fs) < f)%nat ->
  fields f None (enc_fields fs) = Some (fs, []).
Proof.
  unfold enc_fields. induction fs as [|fd fs IH]; intros f H L; (destruct f as [|f]; [exfalso; lia|]); [reflexivity|].
  cbn [flat_map] in *. rewrite fields_field by exact (Forall_inv H).
  rewrite IH; [reflexivity|exact (Forall_inv_tail H)|].
  rewrite app_length in L. pose proof (enc_field_pos fd). unfold lenN in *. lia.
Qed.

Lemma dec_enc_fields : forall fs, Forall wfield_ok fs -> dec_fields (enc_fields fs) = Some fs.
Proof. intros fs H. unfold dec_fields. rewrite fields_enc by (auto; lia). reflexivity. Qed.

Lemma enc_fields_app : forall a b, enc_fields (a ++ b) = enc_fields a ++ enc_fields b.
Proof. intros. unfold enc_fields. apply flat_map_app. Qed.

(* The payloads are shorter than the whole. *)
Lemma enc_fields_In : forall fs num b, In (num, WLen b) fs -> lenN b < lenN (enc_fields fs).
Proof.
  induction fs as [|f fs IH]; intros num b []; unfold enc_fields in *; cbn [flat_map]; unfold bytes in *; rewrite lenN_app.
  - subst. cbn [enc_field]. rewrite !lenN_app. pose proof (enc_varint_pos (8 * num + 2)). unfold bytes in *. lia.
  - specialize (IH _ _ H). lia.
Qed.

(* The bound on the number of steps is irrelevant: [fields] with any larger one
   gives the same result. *)
Lemma unvarint_shorter : forall k bs n r, unvarint k bs = Some (n, r) -> (length r < length bs)%nat.
Proof.
  induction k; intros bs n r H; [discriminate|]. destruct bs as [|b bs]; [discriminate|]. cbn [unvarint] in H.
  destruct (b <? 128); [inversion H; subst; cbn; lia|]. destruct (unvarint k bs) as [[m r']|] eqn:E; [|discriminate].
  inversion H; subst. specialize (IHk _ _ _ E). cbn [length]. lia.
Qed.

Lemma dec_varint_shorter : forall bs n r, dec_varint bs = Some (n, r) -> (length r < length bs)%nat.
Proof.
  intros bs n r H. unfold dec_varint in H. destruct (unvarint 10 bs) as [[m r']|] eqn:E; [|discriminate].
  inversion H; subst. eapply unvarint_shorter; eauto.
Qed.

Lemma dec_tag_shorter : forall bs n w r, dec_tag bs = Some (n, w, r) -> (length r < length bs)%nat.
Proof.
  intros bs n w r H. unfold dec_tag in H. destruct (dec_varint bs) as [[m r']|] eqn:E; [|discriminate].
  destruct (_ && _); inversion H; subst. eapply dec_varint_shorter; eauto.
Qed.

Lemma split_bytes_shorter : forall n bs b r, split_bytes n bs = Some (b, r) -> (length r <= length bs)%nat.
Proof.
  intros n bs b r H. unfold split_bytes in H. destruct (_ <=? _); inversion H; subst. unfold dropN. rewrite skipn_length. lia.
Qed.

Lemma dec_value_shorter : forall w bs v r, dec_value w bs = Some (v, r) -> (length r <= length bs)%nat.
Proof.
  intros w bs v r H.
  assert (A : forall n x, dec_varint bs = Some (n, x) -> (length x <= length bs)%nat) by (intros; apply dec_varint_shorter in H0; lia).
  unfold dec_value in H. destruct w as [|[[[]|[]|]|[[]|[]|]|]]; try discriminate.
  - destruct (dec_varint bs) as [[n x]|] eqn:E; [|discriminate]. inversion H; subst. eapply A; eauto.
  - destruct (split_bytes 4 bs) as [[b x]|] eqn:E; [|discriminate]. inversion H; subst. eapply split_bytes_shorter; eauto.
  - destruct (dec_varint bs) as [[n x]|] eqn:E; [|discriminate]. destruct (_ <=? _); [discriminate|].
    destruct (split_bytes n x) as [[b y]|] eqn:E2; [|discriminate]. inversion H; subst. apply split_bytes_shorter in E2.
    specialize (A _ _ eq_refl). lia.
  - destruct (split_bytes 8 bs) as [[b x]|] eqn:E; [|discriminate]. inversion H; subst. eapply split_bytes_shorter; eauto.
Qed.

Lemma fields_shorter : forall f g bs fs r, fields f g bs = Some (fs, r) -> (length r <= length bs)%nat.
Proof.
  induction f as [|f IH]; intros g bs fs r H; [discriminate|]. cbn [fields] in H. destruct bs as [|b bs].
  - destruct g; inversion H; subst; cbn; lia.
  - remember (b :: bs) as l. destruct (dec_tag l) as [[[num w] x]|] eqn:T; [|discriminate]. apply dec_tag_shorter in T.
    destruct (w =? 3).
    + destruct (fields f (Some num) x) as [[fs1 y]|] eqn:E1; [|discriminate]. apply IH in E1. apply IH in H. lia.
    + destruct (w =? 4).
      * destruct g as [g|]; [|discriminate]. destruct (g =? num); inversion H; subst. lia.
      * destruct (dec_value w x) as [[v y]|] eqn:E1; [|discriminate]. apply dec_value_shorter in E1.
        destruct (fields f g y) as [[fs2 z]|] eqn:E2; [|discriminate]. inversion H; subst. apply IH in E2. lia.
Qed.

Lemma fields_fuel : forall f f' g bs, (length bs < f)%nat -> (length bs < f')%nat -> fields f g bs = fields f' g bs.
Proof.
  induction f as [|f IH]; intros f' g bs H H'; [lia|]. destruct f' as [|f']; [lia|]. cbn [fields].
  destruct bs as [|b bs]; [reflexivity|]. remember (b :: bs) as l.
  destruct (dec_tag l) as [[[num w] x]|] eqn:T; [|reflexivity]. apply dec_tag_shorter in T.
  destruct (w =? 3).
  - rewrite (IH f' (Some num) x) by lia. destruct (fields f' (Some num) x) as [[fs1 y]|] eqn:E1; [|reflexivity].
    apply fields_shorter in E1. apply IH; lia.
  - destruct (w =? 4); [reflexivity|]. destruct (dec_value w x) as [[v y]|] eqn:E1; [|reflexivity].
    apply dec_value_shorter in E1. rewrite (IH f' g y) by lia. reflexivity.
Qed.

(* ---- building blocks of messages ---- *)
Lemma fold_app : forall A (step : A -> wfield -> option A) a b m,
  fold_fields step m (a ++ b) = match fold_fields step m a with Some m' => fold_fields step m' b | None => None end.
Proof.
  intros A step. induction a as [|f a IH]; intros b m; cbn [app fold_fields]; [reflexivity|].
  destruct (step m f); [apply IH|reflexivity].
Qed.

Lemma fold_str : forall A (step : A -> wfield -> option A) m m' num s,
  (s <> [] -> step m (num, WLen s) = Some m') -> (s = [] -> m' = m) -> fold_fields step m (f_str num s) = Some m'.
Proof.
  intros A step m m' num [|b s] H E; cbn [f_str fold_fields]; [rewrite E; reflexivity|].
  rewrite H by discriminate. reflexivity.
Qed.

Lemma fold_uint : forall A (step : A -> wfield -> option A) m m' num n,
  step m (num, WVarint n) = Some m' -> (n = 0 -> m' = m) -> fold_fields step m (f_uint num n) = Some m'.
Proof.
  intros A step m m' num n H E. unfold f_uint. destruct (n =? 0) eqn:Z; cbn [fold_fields].
  - rewrite E by lia. reflexivity.
  - rewrite H. reflexivity.
Qed.

Lemma sign_mod : forall n, n < two32 -> sign_extend n mod two32 = n.
Proof. intros n H. unfold sign_extend. destruct (n <? 2147483648) eqn:E; unfold two32, two64 in *; lia. Qed.

Lemma sign_small : forall n, n < two32 -> sign_extend n < two64.
Proof. intros n H. unfold sign_extend. destruct (n <? 2147483648) eqn:E; unfold two32, two64 in *; lia. Qed.

Lemma fold_enum : forall A (step : A -> wfield -> option A) m m' num n,
  n < two32 -> (forall x, x mod two32 = n -> step m (num, WVarint x) = Some m') -> (n = 0 -> m' = m) ->
  fold_fields step m (f_enum num n) = Some m'.
Proof.
  intros A step m m' num n Hn H E. unfold f_enum. apply fold_uint.
  - apply H. apply sign_mod. exact Hn.
  - intros Z. apply E. unfold sign_extend in Z. destruct (n <? 2147483648); unfold two64, two32 in *; lia.
Qed.

Lemma fold_bool : forall A (step : A -> wfield -> option A) m m' num b,
  (b = true -> step m (num, WVarint 1) = Some m') -> (b = false -> m' = m) -> fold_fields step m (f_bool num b) = Some m'.
Proof.
  intros A step m m' num [] H E; cbn [f_bool fold_fields]; [rewrite H; reflexivity|rewrite E; reflexivity].
Qed.

Lemma fold_opt : forall A (step : A -> wfield -> option A) m m' num o,
  match o with None => m' = m | Some b => step m (num, WLen b) = Some m' end -> fold_fields step m (f_opt num o) = Some m'.
Proof. intros A step m m' num [b|] H; cbn [f_opt fold_fields]; [rewrite H|rewrite H]; reflexivity. Qed.

Lemma fold_rep : forall A B (step : A -> wfield -> option A) num (put : list B -> A) (e : B -> bytes) l acc,
  (forall acc x, In x l -> step (put acc) (num, WLen (e x)) = Some (put (acc ++ [x]))) ->
  fold_fields step (put acc) (f_rep num (map e l)) = Some (put (acc ++ l)).
Proof.
  intros A B step num put e l. induction l as [|x l IH]; intros acc H; cbn [map f_rep fold_fields].
  - rewrite app_nil_r. reflexivity.
  - rewrite H by (left; reflexivity). fold (f_rep num (map e l)). rewrite IH by (intros; apply H; right; assumption).
    rewrite <- app_assoc. reflexivity.
Qed.

Lemma unpack_enc : forall l f, Forall (fun n => n < two32) l ->
  (length (flat_map (fun n => enc_varint (sign_extend n)) l) < f)%nat ->
  unpack f (flat_map (fun n => enc_varint (sign_extend n)) l) = Some l.
Proof.
  induction l as [|n l IH]; intros f H L; (destruct f as [|f]; [exfalso; lia|]); [reflexivity|].
  cbn [flat_map] in *. cbn [unpack].
  destruct (enc_varint (sign_extend n) ++ flat_map (fun n => enc_varint (sign_extend n)) l) eqn:X;
    [exfalso; eapply enc_varint_nonempty; exact X|]. rewrite <- X in *.
  rewrite dec_enc_varint by (apply sign_small; exact (Forall_inv H)).
  rewrite IH; [rewrite sign_mod by exact (Forall_inv H); reflexivity|exact (Forall_inv_tail H)|].
  rewrite app_length in L. pose proof (enc_varint_pos (sign_extend n)). unfold lenN in *. lia.
Qed.

Lemma fold_packed : forall A (step : A -> wfield -> option A) m m' num l,
  Forall (fun n => n < two32) l ->
  (forall b, unpack (S (length b)) b = Some l -> step m (num, WLen b) = Some m') -> (l = [] -> m' = m) ->
  fold_fields step m (f_packed num l) = Some m'.
Proof.
  intros A step m m' num l Hl H E. unfold f_packed. destruct l as [|n l]; cbn [fold_fields]; [rewrite E; reflexivity|].
  rewrite H; [reflexivity|]. apply unpack_enc; [exact Hl|lia].
Qed.
