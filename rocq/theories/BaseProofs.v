(* Lemmas about Base.v. *)
From Coq Require Import List Arith NArith Bool Lia ZifyBool ZifyNat ZifyN.
From Verif Require Import Base.
Import ListNotations.
Local Open Scope N_scope.

Lemma lenN_nil : forall A, lenN (@nil A) = 0.
Proof. reflexivity. Qed.

Lemma lenN_cons : forall A (x : A) l, lenN (x :: l) = 1 + lenN l.
Proof. intros; unfold lenN; cbn [length]; lia. Qed.

Lemma lenN_app : forall A (a b : list A), lenN (a ++ b) = lenN a + lenN b.
Proof. intros; unfold lenN; rewrite app_length; lia. Qed.

Lemma lenN_takeN : forall A n (l : list A), lenN (takeN n l) = N.min n (lenN l).
Proof. intros; unfold lenN, takeN; rewrite firstn_length; lia. Qed.

Lemma lenN_dropN : forall A n (l : list A), lenN (dropN n l) = lenN l - n.
Proof. intros; unfold lenN, dropN; rewrite skipn_length; lia. Qed.

Lemma lenN_zeros : forall n, lenN (zeros n) = n.
Proof. intros; unfold lenN, zeros; rewrite repeat_length; lia. Qed.

Lemma lenN_repeat : forall A (x : A) n, lenN (repeat x n) = N.of_nat n.
Proof. intros; unfold lenN; rewrite repeat_length; lia. Qed.

Lemma lenN_0 : forall A (l : list A), lenN l = 0 -> l = [].
Proof. intros A [|x l] H; [reflexivity|]; rewrite lenN_cons in H; lia. Qed.

Lemma lenN_map : forall A B (f : A -> B) l, lenN (map f l) = lenN l.
Proof. intros; unfold lenN; rewrite map_length; reflexivity. Qed.

Lemma lenN_rev : forall A (l : list A), lenN (rev l) = lenN l.
Proof. intros; unfold lenN; rewrite rev_length; reflexivity. Qed.

Lemma takeN_0 : forall A (l : list A), takeN 0 l = [].
Proof. reflexivity. Qed.

Lemma dropN_0 : forall A (l : list A), dropN 0 l = l.
Proof. reflexivity. Qed.

Lemma takeN_all : forall A n (l : list A), lenN l <= n -> takeN n l = l.
Proof. intros; unfold takeN; apply firstn_all2; unfold lenN in *; lia. Qed.

Lemma dropN_all : forall A n (l : list A), lenN l <= n -> dropN n l = [].
Proof. intros; unfold dropN; apply skipn_all2; unfold lenN in *; lia. Qed.

Lemma takeN_dropN : forall A n (l : list A), takeN n l ++ dropN n l = l.
Proof. intros; unfold takeN, dropN; apply firstn_skipn. Qed.

Lemma takeN_app_exact : forall A (a b : list A), takeN (lenN a) (a ++ b) = a.
Proof.
  intros; unfold takeN, lenN; rewrite Nat2N.id, firstn_app, firstn_all.
  rewrite Nat.sub_diag; cbn [firstn]; apply app_nil_r.
Qed.

Lemma dropN_app_exact : forall A (a b : list A), dropN (lenN a) (a ++ b) = b.
Proof.
  intros; unfold dropN, lenN; rewrite Nat2N.id, skipn_app, skipn_all.
  rewrite Nat.sub_diag; reflexivity.
Qed.

Lemma takeN_app_le : forall A n (a b : list A),
  n <= lenN a -> takeN n (a ++ b) = takeN n a.
Proof.
  intros A n a b H; unfold takeN, lenN in *; rewrite firstn_app.
  replace (N.to_nat n - length a)%nat with 0%nat by lia.
  cbn [firstn]; apply app_nil_r.
Qed.

Lemma takeN_app_ge : forall A n (a b : list A),
  lenN a <= n -> takeN n (a ++ b) = a ++ takeN (n - lenN a) b.
Proof.
  intros A n a b H; unfold takeN, lenN in *; rewrite firstn_app.
  rewrite firstn_all2 by lia. do 2 f_equal; lia.
Qed.

Lemma dropN_app_le : forall A n (a b : list A),
  n <= lenN a -> dropN n (a ++ b) = dropN n a ++ b.
Proof.
  intros A n a b H; unfold dropN, lenN in *; rewrite skipn_app.
  replace (N.to_nat n - length a)%nat with 0%nat by lia. reflexivity.
Qed.

Lemma dropN_app_ge : forall A n (a b : list A),
  lenN a <= n -> dropN n (a ++ b) = dropN (n - lenN a) b.
Proof.
  intros A n a b H; unfold dropN, lenN in *; rewrite skipn_app.
  rewrite skipn_all2 by lia. cbn [app]. f_equal; lia.
Qed.

Lemma dropN_dropN : forall A n m (l : list A),
  dropN n (dropN m l) = dropN (m + n) l.
Proof.
  intros A n m l; unfold dropN.
  replace (N.to_nat (m + n)) with (N.to_nat m + N.to_nat n)%nat by lia.
  generalize (N.to_nat m) (N.to_nat n); clear; intros a; revert l.
  induction a; intros [|x l] b; cbn; auto.
  destruct b; reflexivity.
Qed.

Lemma takeN_takeN : forall A n m (l : list A),
  takeN n (takeN m l) = takeN (N.min n m) l.
Proof.
  intros; unfold takeN; rewrite firstn_firstn; f_equal; lia.
Qed.

Lemma takeN_cons : forall A n (x : A) l, 0 < n -> takeN n (x :: l) = x :: takeN (n - 1) l.
Proof.
  intros; unfold takeN.
  replace (N.to_nat n) with (S (N.to_nat (n - 1))) by lia. reflexivity.
Qed.

Lemma dropN_cons : forall A n (x : A) l, 0 < n -> dropN n (x :: l) = dropN (n - 1) l.
Proof.
  intros; unfold dropN.
  replace (N.to_nat n) with (S (N.to_nat (n - 1))) by lia. reflexivity.
Qed.

Lemma takeN_nil : forall A n, takeN n (@nil A) = [].
Proof. intros; unfold takeN; apply firstn_nil. Qed.

Lemma dropN_nil : forall A n, dropN n (@nil A) = [].
Proof. intros; unfold dropN; apply skipn_nil. Qed.

Lemma takeN_plus : forall A n m (l : list A),
  takeN (n + m) l = takeN n l ++ takeN m (dropN n l).
Proof.
  intros A n m l; unfold takeN, dropN.
  replace (N.to_nat (n + m)) with (N.to_nat n + N.to_nat m)%nat by lia.
  generalize (N.to_nat n) (N.to_nat m); clear; intros a; revert l.
  induction a; intros [|x l] b; cbn; auto.
  - destruct b; reflexivity.
  - f_equal; apply IHa.
Qed.

Lemma dropN_takeN : forall A n m (l : list A),
  dropN n (takeN m l) = takeN (m - n) (dropN n l).
Proof.
  intros A n m l; unfold takeN, dropN.
  rewrite skipn_firstn_comm. f_equal; lia.
Qed.

Lemma nth_error_dropN : forall A n (l : list A) x l',
  dropN n l = x :: l' -> nth_error l (N.to_nat n) = Some x.
Proof.
  intros A n l x l'; unfold dropN; generalize (N.to_nat n); clear n.
  intros n; revert l; induction n; intros [|y l] H; cbn in *; try discriminate.
  - injection H; congruence.
  - eauto.
Qed.

Lemma bytes_ok_app : forall a b, bytes_ok (a ++ b) <-> bytes_ok a /\ bytes_ok b.
Proof. intros; unfold bytes_ok; apply Forall_app. Qed.

Lemma Forall_takeN : forall A (Q : A -> Prop) n l, Forall Q l -> Forall Q (takeN n l).
Proof.
  intros A Q n l H. rewrite <- (takeN_dropN _ n l) in H.
  apply Forall_app in H; tauto.
Qed.

Lemma Forall_dropN : forall A (Q : A -> Prop) n l, Forall Q l -> Forall Q (dropN n l).
Proof.
  intros A Q n l H. rewrite <- (takeN_dropN _ n l) in H.
  apply Forall_app in H; tauto.
Qed.

Lemma bytes_ok_zeros : forall n, bytes_ok (zeros n).
Proof.
  intros n; unfold bytes_ok, zeros; apply Forall_forall; intros x H.
  apply repeat_spec in H; subst; unfold byte_ok; lia.
Qed.

Lemma xor_bytes_length : forall a b,
  length (xor_bytes a b) = Nat.min (length a) (length b).
Proof. induction a; destruct b; cbn; auto. Qed.

Lemma xor_bytes_app : forall a b c d, length a = length c ->
  xor_bytes (a ++ b) (c ++ d) = xor_bytes a c ++ xor_bytes b d.
Proof.
  induction a; destruct c; cbn; intros d H; try discriminate; auto.
  f_equal; apply IHa; lia.
Qed.

Lemma xor_bytes_involutive : forall a b, (length a <= length b)%nat ->
  xor_bytes (xor_bytes a b) b = a.
Proof.
  induction a; destruct b; cbn; intros H; auto; try lia.
  f_equal; [|apply IHa; lia].
  rewrite N.lxor_assoc, N.lxor_nilpotent, N.lxor_0_r; reflexivity.
Qed.

Lemma byte_ok_lxor : forall a b, byte_ok a -> byte_ok b -> byte_ok (N.lxor a b).
Proof.
  unfold byte_ok; intros a b Ha Hb.
  destruct (N.eq_dec (N.lxor a b) 0) as [E|E]; [rewrite E; lia|].
  apply (proj2 (N.log2_lt_pow2 (N.lxor a b) 8 ltac:(lia))).
  eapply N.le_lt_trans; [apply N.log2_lxor|].
  apply N.max_lub_lt.
  - destruct (N.eq_dec a 0); [subst; cbn; lia|].
    apply N.log2_lt_pow2; [lia|exact Ha].
  - destruct (N.eq_dec b 0); [subst; cbn; lia|].
    apply N.log2_lt_pow2; [lia|exact Hb].
Qed.

Lemma bytes_ok_xor : forall a b, bytes_ok a -> bytes_ok b -> bytes_ok (xor_bytes a b).
Proof.
  induction a; destruct b; cbn; intros Ha Hb; try constructor.
  - apply byte_ok_lxor; [inversion Ha | inversion Hb]; assumption.
  - apply IHa; [inversion Ha | inversion Hb]; assumption.
Qed.

(* ------------------------------------------------------------------ *)
(* iovecs *)

Lemma wrap64_small : forall n, n < two64 -> wrap64 n = n.
Proof. intros; unfold wrap64; apply N.mod_small; assumption. Qed.

Lemma total_len_acc : forall vs acc, acc + sum_lens vs < two64 ->
  fold_left (fun a v => wrap64 (a + iov_len v)) vs acc = acc + sum_lens vs.
Proof.
  induction vs; cbn [fold_left sum_lens]; intros acc H; [lia|].
  rewrite wrap64_small by lia. rewrite IHvs; lia.
Qed.

Lemma total_len_sum : forall vs, sum_lens vs < two64 -> total_len vs = sum_lens vs.
Proof. intros; unfold total_len; rewrite total_len_acc; lia. Qed.

Lemma sum_lens_concat : forall vs, Forall iov_valid vs ->
  sum_lens vs = lenN (iov_concat vs).
Proof.
  induction 1 as [|v vs Hv Hvs IH]; cbn; [reflexivity|].
  rewrite lenN_app, IH. destruct v; cbn in *; [reflexivity|]. subst; reflexivity.
Qed.

Lemma iov_concat_cons : forall v vs, iov_concat (v :: vs) = iov_data v ++ iov_concat vs.
Proof. reflexivity. Qed.

Lemma iov_concat_app : forall a b, iov_concat (a ++ b) = iov_concat a ++ iov_concat b.
Proof. intros; unfold iov_concat; apply flat_map_app. Qed.

Lemma sum_lens_app : forall a b, sum_lens (a ++ b) = sum_lens a + sum_lens b.
Proof. induction a; cbn; intros; [lia|]. rewrite IHa; lia. Qed.

Lemma write_at_buf : forall buf off data,
  off + lenN data <= lenN buf ->
  write_at (IoBuf buf) off data =
  Done (IoBuf (takeN off buf ++ data ++ dropN (off + lenN data) buf)).
Proof.
  intros buf off data H; unfold write_at; destruct data as [|x data].
  - rewrite lenN_nil, N.add_0_r; cbn [app]; rewrite takeN_dropN; reflexivity.
  - destruct (N.leb_spec (off + lenN (x :: data)) (lenN buf)); [reflexivity|lia].
Qed.

Lemma lenN_write : forall (buf : bytes) off data,
  off + lenN data <= lenN buf ->
  lenN (takeN off buf ++ data ++ dropN (off + lenN data) buf) = lenN buf.
Proof.
  intros; rewrite !lenN_app, lenN_takeN, lenN_dropN; lia.
Qed.

(* Consecutive writes combine. *)
Lemma write_write : forall (buf : bytes) off d1 d2,
  off + lenN d1 + lenN d2 <= lenN buf ->
  let b1 := takeN off buf ++ d1 ++ dropN (off + lenN d1) buf in
  takeN (off + lenN d1) b1 ++ d2 ++ dropN (off + lenN d1 + lenN d2) b1 =
  takeN off buf ++ (d1 ++ d2) ++ dropN (off + lenN (d1 ++ d2)) buf.
Proof.
  intros buf off d1 d2 H b1; subst b1.
  assert (Ht : lenN (takeN off buf) = off) by (rewrite lenN_takeN; lia).
  rewrite takeN_app_ge by lia. rewrite Ht.
  replace (off + lenN d1 - off) with (lenN d1) by lia.
  rewrite takeN_app_exact.
  rewrite dropN_app_ge by lia. rewrite Ht.
  rewrite dropN_app_ge by lia.
  rewrite dropN_dropN, lenN_app.
  replace (off + lenN d1 + (off + lenN d1 + lenN d2 - off - lenN d1))
    with (off + (lenN d1 + lenN d2)) by lia.
  rewrite <- !app_assoc; reflexivity.
Qed.

Lemma zero_out_buf : forall d, zero_out (IoBuf d) = Done (IoBuf (zeros (lenN d))).
Proof. reflexivity. Qed.

Lemma bind_done : forall A B (m : M A) (k : A -> M B) fs a fs',
  m fs = Done (a, fs') -> bind m k fs = k a fs'.
Proof. intros; unfold bind; rewrite H; reflexivity. Qed.

(* [safe o Q]: if o completes, Q holds; the only undefined behaviour is a shift
   by a negative amount; the fuel does not run out. *)
Definition safe {A} (o : outcome A) (Q : A -> Prop) : Prop :=
  match o with
  | Done a => Q a
  | Undef u => u = UbNegativeShift
  | NoFuel => False
  end.

Lemma safe_bind : forall A B (o : outcome A) (k : A -> outcome B) (Q : A -> Prop) (R : B -> Prop),
  safe o Q -> (forall a, Q a -> safe (k a) R) -> safe (obind o k) R.
Proof. intros A B [a|u|] k Q R H K; cbn in *; auto. Qed.

Lemma safe_mono : forall A (o : outcome A) (Q R : A -> Prop),
  safe o Q -> (forall a, Q a -> R a) -> safe o R.
Proof. intros A [a|u|] Q R H K; cbn in *; auto. Qed.

