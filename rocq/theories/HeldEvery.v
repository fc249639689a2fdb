From Coq Require Import List NArith Bool Lia.
From Verif Require Import Base BaseProofs Aead Hkdf HalfConn SpecAead SpecTls HalfProofs Options HsHandler SpecHs HsProofs Crypter SpecRecord CrypterProofs
  SpecRx CrypterRun CrypterRunProofs CrypterLemmas CrypterLemmas2 Held HeldProofs HeldFinal.
Import ListNotations.
Local Open Scope N_scope.

Lemma cut_exists : forall k (l : bytes), bytes_ok l -> lenN l <= N.of_nat k * 16384 ->
  exists cs, concat cs = l /\ Forall (fun c => bytes_ok c /\ 1 <= lenN c <= 16384) cs /\ (length cs <= k)%nat.
Proof.
  induction k as [|k IH]; intros l Hb Hl.
  - exists []. assert (l = []) by (apply lenN_0; lia). subst. repeat split; [constructor|cbn; lia].
  - destruct l as [|b l]; [exists []; repeat split; [constructor|cbn; lia]|]. set (m := b :: l) in *.
    assert (Lm : 1 <= lenN m) by (unfold m; rewrite lenN_cons; lia). destruct (bytes_take 16384 m Hb) as [B1 B2].
    destruct (IH (dropN 16384 m) B2) as (cs & A & B & C); [rewrite lenN_dropN; lia|].
    exists (takeN 16384 m :: cs). split; [cbn [concat]; rewrite A; apply takeN_dropN|]. split; [|cbn [length]; lia].
    constructor; [|exact B]. split; [exact B1|]. rewrite lenN_takeN. lia.
Qed.

Definition accepted (r : cres) : Prop := exists out, r = CUnprotected S_OK 0 out.

Definition room (r : rx) (n : N) : Prop := r_closed r = false /\ d_broken (r_dir r) = false /\ d_seq (r_dir r) + n <= two64.

Lemma feed_part : forall P lib a m rest cs, hs_msg m -> is_ticket m = true -> Forall (fun c => bytes_ok c /\ 1 <= lenN c <= 16384) cs ->
  forall part ops rs x r k, connection P lib a ops rs x -> received P a ops rs r -> room r (N.of_nat (length cs) + k) ->
  r_part r = part -> m = part ++ concat cs ++ rest -> hs_partial part -> cs <> [] -> lenN (tickets_of (r_msgs r)) + (match rest with [] => 1 | _ => 0 end) < 5 ->
  exists ops' rs' x' r', connection P lib a (ops ++ ops') (rs ++ rs') x' /\ received P a (ops ++ ops') (rs ++ rs') r' /\ room r' k /\
    Forall accepted rs' /\ r_sent r' = r_sent r /\
    r_msgs r' = r_msgs r ++ (match rest with [] => [m] | _ => [] end) /\
    r_part r' = match rest with [] => [] | _ => part ++ concat cs end.
Proof.
  intros P lib a m rest cs Hm Ht. induction cs as [|c cs IH]; intros Hcs part ops rs x r k HC HR Hroom Ep Em Hpt Hne H4; [contradiction|]. clear Hne.
  pose proof (Forall_inv Hcs) as [Bc Lc]. pose proof (Forall_inv_tail Hcs) as Hcs'. subst part. pose proof HC as (H1 & H2 & H3 & H4' & H5). destruct HR as [R1 R2]. destruct Hroom as (Q1 & Q2 & Q3).
  cbn [length] in Q3. cbn [concat] in Em. rewrite <- app_assoc in Em.
  set (msg := inner ty_handshake c 0).
  set (pl := [IoBuf (dir_seal P (r_dir r) (tls_header (lenN msg + 16)) msg)]).
  assert (Kt : forall p : bytes, p <> [] -> (exists q, m = p ++ q) -> is_ticket p = true).
  { intros p Hp (q & E). rewrite E in Ht. rewrite is_ticket_app in Ht by exact Hp. exact Ht. }
  assert (Ck : forall p : bytes, is_ticket p = true -> is_key_update p = false).
  { intros p K. unfold is_ticket, is_key_update, has_type in *. destruct p as [|y p]; [reflexivity|]. apply N.eqb_eq in K. subst. reflexivity. }
  assert (Nc : c <> []) by (intro K; rewrite K in Lc; cbn in Lc; lia).
  set (last := match concat cs ++ rest with [] => true | _ => false end).
  set (ms1 := if last then [m] else []). set (part1 := if last then [] else r_part r ++ c).
  assert (E1 : r_part r ++ c = concat ms1 ++ part1).
  { unfold ms1, part1, last. destruct (concat cs ++ rest) eqn:El; cbn [concat app]; [|reflexivity]. rewrite !app_nil_r. rewrite Em. cbn. rewrite app_nil_r. reflexivity. }
  destruct (hs_lemma P lib a ops rs x H1 H2 H3 H4' H5 r R1 R2 c 0 pl (zeros (lenN msg)) ms1 part1) as (x1 & out & Hop & Hs & Hrx).
  { exact Q1. } { split; [exact Q2|lia]. } { exact Bc. } { lia. } { rewrite lenN_zeros. apply N.le_refl. } { repeat constructor. }
  { unfold pl. cbn [iov_concat flat_map iov_data]. rewrite app_nil_r. reflexivity. } { exact E1. }
  { unfold ms1. destruct last; [constructor; [exact Hm|constructor]|constructor]. }
  { unfold ms1. destruct last; [constructor; [left; exact Ht|constructor]|constructor]. }
  { unfold part1, last. destruct (concat cs ++ rest) as [|z zs] eqn:El.
    - exists m. split; [|exact Hm]. destruct Hm as (? & ? & ? & ? & ? & -> & _). discriminate.
    - exists (z :: zs). split; [discriminate|]. rewrite <- app_assoc. rewrite <- Em. exact Hm. }
  { intros Hp1. left. apply Kt; [exact Hp1|]. unfold part1, last in *. destruct (concat cs ++ rest) as [|z zs]; [contradiction|]. exists (z :: zs). rewrite <- app_assoc. exact Em. }
  { unfold ms1. destruct last; [|exact I]. cbn [key_update_last]. split; [|exact I]. intro K. rewrite (Ck m Ht) in K. discriminate. }
  assert (Hku : has_key_update c ms1 part1 = false).
  { unfold has_key_update. destruct (empty c); [reflexivity|]. cbn [negb andb]. unfold ms1, part1, last. destruct (concat cs ++ rest) as [|z zs] eqn:El; cbn [app existsb].
    - rewrite (Ck m Ht). reflexivity.
    - rewrite orb_false_r. apply Ck. apply Kt; [destruct (r_part r); [exact Nc|discriminate]|]. exists (z :: zs). rewrite <- app_assoc. exact Em. }
  rewrite Hku in Hrx.
  set (op := (CUnprotect (tls_header (lenN msg + 16)) pl (zeros (lenN msg)), []) : cop * faults) in *.
  set (r1 := rx_read (rx_dir r (dir_next (r_dir r))) (dir_next (r_dir r)) ms1 part1) in *.
  assert (HC1 : connection P lib a (ops ++ [op]) (rs ++ [CUnprotected S_OK 0 out]) x1).
  { split; [exact H1|]. split; [exact H2|]. split; [exact H3|].
    split; [apply Forall_app; split; [exact H4'|]; constructor; [exact Hop|constructor]|]. exact (creach_snoc _ _ _ _ _ _ _ _ _ _ H5 Hs). }
  assert (HR1 : received P a (ops ++ [op]) (rs ++ [CUnprotected S_OK 0 out]) r1) by (split; [exact Hrx|exact R2]).
  assert (Hroom1 : room r1 (N.of_nat (length cs) + k)).
  { split; [exact Q1|]. split; [exact Q2|]. unfold r1, rx_read. cbn [r_dir dir_next d_seq]. lia. }
  assert (L5 : (5 <=? lenN (tickets_of (r_msgs r ++ ms1))) = false).
  { apply N.leb_gt. unfold tickets_of. rewrite filter_app, lenN_app. unfold ms1. unfold tickets_of in H4.
    destruct last eqn:El; cbn [filter]; [rewrite Ht|]; rewrite ?lenN_cons, ?lenN_nil; [|destruct rest; lia].
    destruct rest; [lia|]. exfalso. unfold last in El. destruct (concat cs); discriminate El. }
  assert (Es1 : r_sent r1 = r_sent r).
  { unfold r1, rx_read. cbn [r_sent rx_dir r_msgs r_done]. rewrite L5, andb_false_r. cbn [andb]. apply app_nil_r. }
  destruct cs as [|c2 cs].
  - exists [op], [CUnprotected S_OK 0 out], x1, r1. split; [exact HC1|]. split; [exact HR1|]. split; [exact Hroom1|].
    split; [constructor; [eexists; reflexivity|constructor]|]. split; [exact Es1|]. unfold r1, rx_read. cbn [r_msgs r_part rx_dir]. unfold ms1, part1, last.
    cbn [concat app] in *. rewrite ?app_nil_r. destruct rest; rewrite ?app_nil_r; auto.
  - assert (Enl : last = false).
    { unfold last. cbn [concat]. pose proof (Forall_inv Hcs') as [_ L2]. destruct c2; [rewrite lenN_nil in L2; lia|reflexivity]. }
    assert (Ea : r_msgs r1 = r_msgs r) by (unfold r1, rx_read, ms1; cbn [r_msgs rx_dir]; rewrite Enl; apply app_nil_r).
    assert (Eb : r_part r1 = r_part r ++ c) by (unfold r1, rx_read, part1; cbn [r_part]; rewrite Enl; reflexivity).
    destruct (IH Hcs' (r_part r ++ c) _ _ x1 r1 k HC1 HR1 Hroom1) as (ops' & rs' & x' & r' & A1 & A2 & A3 & A4 & A5 & A6 & A7).
    { exact Eb. } { rewrite <- app_assoc. exact Em. }
    { exists (concat (c2 :: cs) ++ rest). split; [|rewrite <- app_assoc, <- Em; exact Hm]. intro K. unfold last in Enl. rewrite K in Enl. discriminate. }
    { discriminate. } { rewrite Ea. exact H4. }
    exists (op :: ops'), (CUnprotected S_OK 0 out :: rs'), x', r'.
    rewrite <- !app_assoc in A1, A2. cbn [app] in A1, A2. split; [exact A1|]. split; [exact A2|]. split; [exact A3|].
    split; [constructor; [eexists; reflexivity|exact A4]|]. split; [congruence|].
    split; [rewrite A6, Ea; reflexivity|].
    rewrite A7. cbn [concat]. rewrite <- !app_assoc. reflexivity.
Qed.

Lemma four : forall P lib a m k n, hs_msg m -> is_ticket m = true -> lenN m <= N.of_nat k * 16384 -> (n <= 4)%nat ->
  forall ops rs x r j, connection P lib a ops rs x -> received P a ops rs r -> room r (N.of_nat (n * k) + j) ->
  r_part r = [] -> lenN (tickets_of (r_msgs r)) + N.of_nat n <= 4 ->
  exists ops' rs' x' r', connection P lib a (ops ++ ops') (rs ++ rs') x' /\ received P a (ops ++ ops') (rs ++ rs') r' /\ room r' j /\
    Forall accepted rs' /\ r_sent r' = r_sent r /\ r_msgs r' = r_msgs r ++ repeat m n /\ r_part r' = [].
Proof.
  intros P lib a m k n Hm Ht Hk. induction n as [|n IH]; intros Hn ops rs x r j HC HR Hroom Ep H4.
  - exists [], [], x, r. rewrite !app_nil_r. split; [exact HC|]. split; [exact HR|]. split; [exact Hroom|]. split; [constructor|]. split; [reflexivity|].
    auto.
  - assert (Bm : bytes_ok m) by (destruct Hm as (? & ? & ? & ? & ? & _ & B & _); exact B).
    destruct (cut_exists k m Bm Hk) as (cs & C1 & C2 & C3).
    destruct (feed_part P lib a m [] cs Hm Ht C2 [] ops rs x r (N.of_nat (n * k) + j) HC HR) as (o1 & s1 & x1 & r1 & A1 & A2 & A3 & A4 & A5 & A6 & A7).
    { destruct Hroom as (Q1 & Q2 & Q3). split; [exact Q1|]. split; [exact Q2|]. cbn [Nat.mul] in Q3. unfold bytes in *. lia. } { exact Ep. } { cbn [app]. rewrite app_nil_r. symmetry. exact C1. }
    { exists m. split; [|exact Hm]. destruct Hm as (? & ? & ? & ? & ? & -> & _). discriminate. }
    { intros ->. cbn in C1. subst m. discriminate Ht. } { lia. }
    destruct (IH ltac:(lia) _ _ x1 r1 j A1 A2 A3 A7) as (o2 & s2 & x2 & r2 & B1 & B2 & B3 & B4 & B5 & B6 & B7).
    { rewrite A6. unfold tickets_of in *. rewrite filter_app, lenN_app. cbn [filter]. rewrite Ht. rewrite lenN_cons, lenN_nil. lia. }
    exists (o1 ++ o2), (s1 ++ s2), x2, r2. rewrite !app_assoc. split; [exact B1|]. split; [exact B2|]. split; [exact B3|].
    split; [apply Forall_app; auto|]. split; [congruence|]. split; [|exact B7]. rewrite B6, A6, <- app_assoc. reflexivity.
Qed.

Lemma fill : forall P lib a m q z k, hs_msg m -> is_ticket m = true -> m = q ++ [z] -> q <> [] -> lenN m <= N.of_nat k * 16384 ->
  forall ops rs x r, connection P lib a ops rs x -> received P a ops rs r -> room r (N.of_nat (5 * k)) ->
  r_part r = [] -> tickets_of (r_msgs r) = [] -> r_sent r = [] ->
  exists ops' rs' x', connection P lib a (ops ++ ops') (rs ++ rs') x' /\ Forall accepted rs' /\ held (cx_handler x') = 5 * lenN m - 1.
Proof.
  intros P lib a m q z k Hm Ht Eq Nq Hk ops rs x r HC HR (Q1 & Q2 & Q3) Ep Et Es.
  destruct (four P lib a m k 4 Hm Ht Hk (le_n 4) ops rs x r (N.of_nat k) HC HR) as (o1 & s1 & x1 & r1 & A1 & A2 & A3 & A4 & A5 & A6 & A7).
  { split; [exact Q1|]. split; [exact Q2|]. lia. } { exact Ep. } { rewrite Et, lenN_nil. lia. }
  assert (Bm : bytes_ok m) by (destruct Hm as (? & ? & ? & ? & ? & _ & B & _); exact B).
  assert (Bq : bytes_ok q) by (rewrite Eq in Bm; apply bytes_ok_app in Bm; apply Bm).
  assert (Lm : lenN m = lenN q + 1) by (rewrite Eq, lenN_app; reflexivity).
  destruct (cut_exists k q Bq) as (cs & C1 & C2 & C3); [lia|].
  assert (T1 : tickets_of (r_msgs r1) = repeat m 4).
  { rewrite A6. unfold tickets_of in *. rewrite filter_app, Et. cbn [app repeat filter]. rewrite Ht. reflexivity. }
  destruct A3 as (U1 & U2 & U3).
  destruct (feed_part P lib a m [z] cs Hm Ht C2 [] _ _ x1 r1 (N.of_nat (k - length cs)) A1 A2) as (o2 & s2 & x2 & r2 & B1 & B2 & B3 & B4 & B5 & B6 & B7).
  { split; [exact U1|]. split; [exact U2|]. unfold bytes in *. lia. } { exact A7. } { cbn [app]. rewrite C1. exact Eq. }
  { exists m. split; [|exact Hm]. destruct Hm as (? & ? & ? & ? & ? & -> & _). discriminate. }
  { intros ->. cbn in C1. subst q. contradiction. } { rewrite T1. unfold lenN. rewrite repeat_length. lia. }
  exists (o1 ++ o2), (s1 ++ s2), x2. rewrite !app_assoc. split; [exact B1|]. split; [apply Forall_app; auto|].
  rewrite (D89exact P lib a _ _ x2 r2 B1 B2) by apply B3. rewrite B5, A5, Es. cbn [negb]. unfold kept_size.
  rewrite B6, app_nil_r, T1, B7. cbn [app]. rewrite C1.
  change (repeat m 4) with [m; m; m; m]. cbn [firstn]. change (5 <=? lenN [m; m; m; m]) with false. cbn [orb andb concat]. rewrite !lenN_app, lenN_nil. lia.
Qed.

Lemma D89every : forall P lib a ops rs x r, connection P lib a ops rs x -> received P a ops rs r ->
  r_closed r = false -> d_broken (r_dir r) = false -> d_seq (r_dir r) + 5125 <= two64 ->
  r_part r = [] -> tickets_of (r_msgs r) = [] -> r_sent r = [] ->
  exists ops' rs' x', connection P lib a (ops ++ ops') (rs ++ rs') x' /\ Forall accepted rs' /\
    held (cx_handler x') = 5 * longest_message - 1.
Proof.
  intros P lib a ops rs x r HC HR Hc Hb Hs Ep Et Es.
  assert (G : forall n, n = 16777214 -> hs_msg (big 4 n ++ [0])).
  { intros n En. exists 4, 255, 255, 255, (body n ++ [0]). split; [reflexivity|]. split; [apply bytes_ok_app; split; [apply big_ok; reflexivity|repeat constructor]|].
    split; [rewrite lenN_app, body_len, En; reflexivity|]. destruct (body n); discriminate. }
  assert (F : forall n, n = 16777214 -> exists ops' rs' x', connection P lib a (ops ++ ops') (rs ++ rs') x' /\ Forall accepted rs' /\
    held (cx_handler x') = 5 * (n + 5) - 1).
  { intros n En. destruct (fill P lib a (big 4 n ++ [0]) (big 4 n) 0 1025 (G n En) eq_refl eq_refl) with (ops := ops) (rs := rs) (x := x) (r := r)
      as (o & s & y & A & B & C); auto.
    - discriminate.
    - rewrite lenN_app, big_len, En. reflexivity || (change (lenN [0]) with 1; lia).
    - split; [exact Hc|]. split; [exact Hb|]. lia.
    - exists o, s, y. split; [exact A|]. split; [exact B|]. rewrite C, lenN_app, big_len. change (lenN [0]) with 1. f_equal. f_equal. lia. }
  destruct (F _ eq_refl) as (o & s & y & A & B & C). exists o, s, y. auto.
Qed.
