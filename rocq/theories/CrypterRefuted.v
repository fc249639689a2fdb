(* Histories showing that C13, C17, C20, C21 and C22 do not hold as stated. *)
From Coq Require Import List NArith Bool Lia.
From Verif Require Import Base Aead Hkdf HalfConn Options HsHandler Crypter SpecTls SpecHs
  SpecRecord SpecRx CrypterRun Toy ToyProofs.
Import ListNotations.
Local Open Scope N_scope.

Definition A0 : create_args := toy_args AES_128_GCM_SHA256 0 0.
Definition five : bytes :=
  ticket [1] ++ ticket [2] ++ ticket [3] ++ ticket [4] ++ ticket [5].

(* [l] is what the peer sent so far; then a record with content [c] of type
   [ty] arrives in a buffer of its size. *)
Definition last_record (l : list (N * bytes)) (ty : N) (c : bytes) : cop :=
  fst (peer_record toy (r_dir (rx_start (fold_left (fun d _ => dir_next d) l (d_in A0))))
         (inner ty c 0)).

Definition nothing_sent (x : crypt) : bool := match cx_sent x with [] => true | _ => false end.
Lemma nothing_sent_true : forall x, nothing_sent x = true -> cx_sent x = [].
Proof. intros x H. unfold nothing_sent in H. destruct (cx_sent x); [reflexivity|discriminate]. Qed.

Definition bytes_eq_dec : forall x y : bytes, {x = y} + {x <> y} := list_eq_dec N.eq_dec.

Lemma C13_refuted_lemma : exists x rs hdr payload buf x' st out,
  creach toy OpenSSL A0 (peer_ops toy (d_in A0) [(22, [4])]) rs x /\
  CUnprotect hdr payload buf = last_record [(22, [4])] 23 [9; 8; 7] /\
  cstep toy OpenSSL x (CUnprotect hdr payload buf) [] = Done (x', CUnprotected st 0 (IoBuf out)) /\
  st = S_INVALID_RECORD /\ takeN 3 buf = [0; 0; 0] /\ takeN 3 out = [9; 8; 7].
Proof.
  destruct (play_check toy OpenSSL A0 (peer_ops toy (d_in A0) [(22, [4])]) (fun x _ =>
    match cstep toy OpenSSL x (last_record [(22, [4])] 23 [9; 8; 7]) [] with
    | Done (_, CUnprotected st n (IoBuf out)) =>
      tests (scode_eq_dec st S_INVALID_RECORD) && (n =? 0) && tests (bytes_eq_dec (takeN 3 out) [9; 8; 7])
    | _ => false end)) as (x & rs & R & H); [vm_compute; reflexivity|].
  destruct (cstep toy OpenSSL x (last_record [(22, [4])] 23 [9; 8; 7]) []) as [[x' [| st n [out|] |]]|u|] eqn:E; try discriminate.
  apply andb_true_iff in H as [H H3]. apply andb_true_iff in H as [H1 H2].
  apply tests_true in H1, H3. apply N.eqb_eq in H2. subst st n.
  destruct (last_record [(22, [4])] 23 [9; 8; 7]) as [|hdr payload buf|] eqn:El; [vm_compute in El; discriminate| |vm_compute in El; discriminate].
  exists x, rs, hdr, payload, buf, x', S_INVALID_RECORD, out.
  split; [exact R|]. split; [reflexivity|]. split; [exact E|]. split; [reflexivity|].
  split; [|exact H3]. vm_compute in El. inversion El; subst. reflexivity.
Qed.

Ltac by_running f :=
  match goal with
  | |- exists x rs, creach ?P ?lib ?a ?ops _ _ /\ _ =>
    let x := fresh "x" in let rs := fresh "rs" in let R := fresh "R" in let H := fresh "H" in
    destruct (play_check P lib a ops f) as (x & rs & R & H);
    [vm_compute; reflexivity|exists x, rs; split; [exact R|]; clear R]
  end.

(* Five tickets and the first byte of a sixth, then application data. *)
Lemma C17_refuted_lemma : exists x rs,
  creach toy OpenSSL A0 (peer_ops toy (d_in A0) [(22, five ++ [4]); (23, [9])]) rs x /\
  map status rs = [Some (S_OK, 0); Some (S_OK, 1)].
Proof.
  by_running (fun (_ : crypt) rs => tests (statuses_eq_dec (map status rs) [Some (S_OK, 0); Some (S_OK, 1)])).
  apply tests_true in H. exact H.
Qed.

(* The same, with the rest of the sixth ticket: all six tickets are lost. *)
Definition six_then_data : list (N * bytes) :=
  [(22, five ++ [4]); (22, [0; 0; 1; 6]); (23, [9]); (23, [10])].
Lemma C20_refuted_lemma : exists x rs,
  creach toy OpenSSL A0 (peer_ops toy (d_in A0) six_then_data) rs x /\
  map status rs = [Some (S_OK, 0); Some (S_OK, 0); Some (S_OK, 1); Some (S_OK, 1)] /\
  cx_sent x = [].
Proof.
  by_running (fun x rs => tests (statuses_eq_dec (map status rs)
    [Some (S_OK, 0); Some (S_OK, 0); Some (S_OK, 1); Some (S_OK, 1)]) && nothing_sent x).
  apply andb_true_iff in H as [H1 H2]. apply tests_true in H1. apply nothing_sent_true in H2. auto.
Qed.

(* One KeyUpdate message cut into two records, both sent under the key in use
   before the update: the second record is rejected. *)
Lemma C21_refuted_lemma : exists x rs,
  creach toy OpenSSL A0 (peer_ops toy (d_in A0) [(22, [24; 0; 0]); (22, [1; 0])]) rs x /\
  map status rs = [Some (S_OK, 0); Some (S_INTERNAL_ERROR, 0)].
Proof.
  by_running (fun (_ : crypt) rs => tests (statuses_eq_dec (map status rs) [Some (S_OK, 0); Some (S_INTERNAL_ERROR, 0)])).
  apply tests_true in H. exact H.
Qed.

(* If the peer also advances its key between the two records, the receiver
   advances a second time and rejects what follows. *)
Lemma C21_twice_lemma : exists x rs,
  creach toy OpenSSL A0
    (peer_ops toy (d_in A0) [(22, [24; 0; 0])] ++
     peer_ops toy (dir_update toy (d_in A0)) [(22, [1; 0]); (23, [9])]) rs x /\
  map status rs = [Some (S_OK, 0); Some (S_OK, 0); Some (S_INTERNAL_ERROR, 0)] /\
  hc_epoch (cx_in x) = 2.
Proof.
  by_running (fun x rs => tests (statuses_eq_dec (map status rs)
    [Some (S_OK, 0); Some (S_OK, 0); Some (S_INTERNAL_ERROR, 0)]) && (hc_epoch (cx_in x) =? 2)).
  apply andb_true_iff in H as [H1 H2]. apply tests_true in H1. apply N.eqb_eq in H2. auto.
Qed.

(* Two zero-length tickets, the second followed by more bytes. *)
Definition empty_tickets : list (N * bytes) := [(22, [4; 0; 0; 0]); (22, [4; 0; 0; 0; 1; 1])].
Lemma C22_refuted_lemma : exists x0,
  crypt_create toy OpenSSL A0 [] = Done (inr x0, []) /\
  crun toy OpenSSL x0 (peer_ops toy (d_in A0) empty_tickets) = Undef UbNegativeShift.
Proof.
  assert (K : match crypt_create toy OpenSSL A0 [] with
    | Done (inr x0, []) => match crun toy OpenSSL x0 (peer_ops toy (d_in A0) empty_tickets) with
                           | Undef UbNegativeShift => true | _ => false end
    | _ => false end = true) by (vm_compute; reflexivity).
  destruct (crypt_create toy OpenSSL A0 []) as [[[c|x0] [|f fs]]|u|]; try discriminate.
  exists x0. split; [reflexivity|].
  destruct (crun toy OpenSSL x0 _) as [?|[]|]; try discriminate. reflexivity.
Qed.
