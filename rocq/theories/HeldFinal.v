From Coq Require Import List NArith Bool Lia.
From Verif Require Import Base BaseProofs Aead Hkdf HalfConn SpecAead SpecTls HalfProofs Options HsHandler SpecHs HsProofs Crypter SpecRecord CrypterProofs
  SpecRx CrypterRun CrypterRunProofs CrypterLemmas SpecHandler HsHistory Held HeldProofs.
Import ListNotations.
Local Open Scope N_scope.

Lemma concat_concat : forall (l : list (list bytes)), concat (concat l) = concat (map (@concat N) l).
Proof. induction l as [|t l IH]; [reflexivity|]. cbn [concat map]. rewrite concat_app, IH. reflexivity. Qed.

Lemma frags_size : forall h buf, pos_ok h buf ->
  lenN (concat (hs_frags h)) = if ignore_future_tickets h && is_ticket buf then N.min 4 (lenN buf) else lenN buf.
Proof.
  intros h buf [b A1 A2 A3 A4 A5 A6 | t a b c part A1 A2 A3 A4 A5 A6 A7].
  - rewrite A2. destruct (_ && _); [rewrite N.min_r by lia; reflexivity|reflexivity].
  - rewrite A7. unfold skips. unfold is_ticket, has_type. destruct (ignore_future_tickets h && (t =? 4)); [|reflexivity].
    rewrite !lenN_cons. change (lenN (@nil N)) with 0. lia.
Qed.

Lemma inv_held : forall h o buf, hs_inv h o buf ->
  held h = (match o with Some l => lenN (concat l) | None => 0 end) +
    (if (match o with Some l => 5 <=? lenN l | None => true end) && is_ticket buf then N.min 4 (lenN buf) else lenN buf).
Proof.
  intros h o buf [Hp Ht]. unfold held, kept_fragments. rewrite concat_app, lenN_app, (frags_size _ _ Hp). unfold ignore_future_tickets, kMaxNumTicketsToProcess.
  destruct o as [l|]; cbn [tick_ok] in Ht.
  - destruct Ht as (ts & -> & E & -> & L & ->). cbn [orb]. rewrite concat_concat, E. apply N.add_comm.
  - destruct Ht as (-> & _ & ->). cbn [orb]. change (lenN (concat (@nil bytes))) with 0. apply N.add_comm.
Qed.

Lemma D89exact : forall P lib a ops rs x r, connection P lib a ops rs x -> received P a ops rs r -> d_broken (r_dir r) = false ->
  held (cx_handler x) = kept_size (negb (match r_sent r with [] => true | _ => false end)) (tickets_of (r_msgs r)) (is_ticket (r_part r)) (r_part r).
Proof.
  intros P lib a ops rs x r (H1 & H2 & H3 & H4 & H5) [Hr Hb] Hd.
  destruct (R_rel P lib a ops rs x H1 H2 H3 H4 H5 r Hr Hb) as (dout & _ & Hinv & _ & Es & _).
  destruct (ci_hs _ _ _ _ _ _ Hinv Hd) as (o & Hi & Hp). rewrite (inv_held _ _ _ Hi). unfold kept_size, tickets_of.
  assert (L : forall n, (n < 5)%nat -> (5 <=? N.of_nat n) = false) by (intros; apply N.leb_gt; lia).
  rewrite <- Es. destruct (cx_phase x).
  - destruct Hp as (-> & -> & Ht & -> & _). cbn [map negb orb firstn]. reflexivity.
  - destruct Hp as (-> & Hl & -> & _). cbn [map negb orb]. rewrite firstn_all2 by lia. reflexivity.
  - destruct Hp as (_ & [[-> Hs] | (-> & -> & Hl & _)]).
    + destruct (cx_sent x); [contradiction|]. reflexivity.
    + cbn [map negb orb]. set (ts := filter is_ticket (r_msgs r)) in *.
      assert (E5 : (5 <=? lenN (firstn 5 ts)) = (5 <=? lenN ts)).
      { unfold lenN. rewrite firstn_length. transitivity true; [apply N.leb_le; lia|symmetry; apply N.leb_le; lia]. }
      rewrite E5. reflexivity.
Qed.

(* The bound is reached up to a few bytes. *)
Definition body (n : N) : bytes := repeat 0 (N.to_nat n).
Lemma body_len : forall n, lenN (body n) = n.
Proof. intros. unfold body, lenN. rewrite repeat_length. lia. Qed.
Lemma body_ok : forall n, bytes_ok (body n).
Proof. intros. apply Forall_forall. intros y Hy. apply repeat_spec in Hy. subst. reflexivity. Qed.
Definition big (t : N) (n : N) : bytes := t :: 255 :: 255 :: 255 :: body n.
Lemma big_ok : forall t n, t < 256 -> bytes_ok (big t n).
Proof. intros t n H. unfold big. repeat (constructor; [first [exact H|reflexivity]|]). apply body_ok. Qed.
Lemma big_len : forall t n, lenN (big t n) = n + 4.
Proof. intros. unfold big. rewrite !lenN_cons, body_len. lia. Qed.
Lemma body_ne : forall n, 1 <= n -> body n <> [].
Proof. intros n H E. pose proof (body_len n) as L. rewrite E in L. cbn in L. lia. Qed.
Lemma big_msg : forall t, t < 256 -> hs_msg (big t 16777215).
Proof.
  intros t H. exists t, 255, 255, 255, (body 16777215). split; [reflexivity|]. split; [apply big_ok; exact H|].
  split; [rewrite body_len; reflexivity|apply body_ne; lia].
Qed.
Lemma big_partial : forall t n, t < 256 -> n = 16777214 -> hs_partial (big t n).
Proof.
  intros t n H En. exists [0]. split; [discriminate|]. exists t, 255, 255, 255, (body n ++ [0]). split; [reflexivity|].
  split; [apply bytes_ok_app; split; [apply big_ok; exact H|repeat constructor]|].
  split; [rewrite lenN_app, body_len, En; reflexivity|]. destruct (body n); discriminate.
Qed.

Lemma held_of : forall t k, hs_msg t -> hs_partial k -> is_ticket t = true -> is_key_update t = false -> is_ticket k = false -> is_key_update k = true ->
  bytes_ok t -> bytes_ok k ->
  exists c rs h, bytes_ok c /\ hrun new_handler [HRecord (IoBuf c)] = Done (h, [HResult (inr rs)]) /\ held h = 5 * lenN t + lenN k.
Proof.
  intros t k Ht Hk T1 T2 K1 K2 Bt Bk. set (ms := [t; t; t; t; t]). set (c := concat ms ++ k).
  assert (Hm : Forall hs_msg ms) by (repeat (constructor; [exact Ht|]); constructor).
  assert (Hc : bytes_ok c).
  { apply bytes_ok_app. split; [|exact Bk]. unfold ms. cbn [concat]. repeat (apply bytes_ok_app; split; [exact Bt|]). constructor. }
  assert (Hp : record_parses [] c ms k).
  { split; [reflexivity|]. split; [exact Hm|]. split; [exact Hk|].
    split; [repeat (constructor; [left; exact T1|]); constructor|]. split; [intros _; right; exact K2|].
    unfold ms. cbn [key_update_last]. repeat split; congruence. }
  destruct (hears_run nothing_heard [HRecord (IoBuf c)] _ _ (HearsCons _ _ _ _ _ _ _ (HearRecord nothing_heard c ms k _ Hp eq_refl) (HearsNil _))
    ltac:(constructor; [exact Hc|constructor]) new_handler new_follows) as (h & E & [F _]).
  exists c. eexists. exists h. split; [exact Hc|]. split; [exact E|]. rewrite (inv_held _ _ _ F).
  unfold kept. cbn [hd_taken hd_msgs hd_part nothing_heard app]. rewrite store_all_firstn.
  assert (T : filter is_ticket ms = ms) by (unfold ms; cbn [filter]; rewrite T1; reflexivity). rewrite T. cbn [firstn ms]. rewrite K1, andb_false_r.
  cbn [concat]. rewrite !lenN_app. change (lenN (@nil N)) with 0. lia.
Qed.
Lemma R89 : exists c rs h, bytes_ok c /\ hrun new_handler [HRecord (IoBuf c)] = Done (h, [HResult (inr rs)]) /\ held h = 6 * longest_message - 1.
Proof.
  destruct (held_of (big 4 16777215) (big 24 16777214)) as (c & rs & h & A & B & C);
    [apply big_msg; reflexivity|apply big_partial; reflexivity|reflexivity|reflexivity|reflexivity|reflexivity|apply big_ok; reflexivity|apply big_ok; reflexivity|].
  exists c, rs, h. split; [exact A|]. split; [exact B|]. rewrite C, !big_len. reflexivity.
Qed.
