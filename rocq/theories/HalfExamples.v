(* A concrete history for the examples in PropHalf.v. *)
From Coq Require Import List NArith Bool Lia.
From Verif Require Import Base Aead Hkdf HalfConn SpecAead SpecTls HalfRun Toy ToyProofs.
Import ListNotations.
Local Open Scope N_scope.

Definition secret_for (s : suite) : bytes := repeat 33 (N.to_nat (spec_hash_len s)).
Definition enc_op : hop := HEncrypt [IoBuf [1]] [IoBuf [5; 6]; IoNull 0; IoBuf [7]] (zeros 19).
Definition forged_op : hop := HDecrypt [] [IoBuf (zeros 20)] (zeros 4).

(* Encrypt, a forged Decrypt, a key update, Encrypt. *)
Definition good_ops : list (hop * faults) :=
  [(enc_op, []); (forged_op, []); (HUpdateKey, []); (enc_op, [])].
(* The second key update fails in its third library call. *)
Definition bad_ops : list (hop * faults) :=
  good_ops ++ [(HUpdateKey, [false; false; true]); (HUpdateKey, [])].

Definition hplay (lib : ssl_lib) (s : suite) (q : N) (ops : list (hop * faults))
  : outcome (half * list hres) :=
  match half_create toy lib s q (secret_for s) [] with
  | Done (inr h, _) => hrun toy lib h ops
  | _ => NoFuel
  end.

Definition hstatus (r : hres) : code := match r with HCrypt st _ _ => st | HUpdated st => st end.

Lemma hplay_reach : forall lib s q ops h rs, hplay lib s q ops = Done (h, rs) ->
  hreach toy lib s q (secret_for s) ops rs h.
Proof.
  intros lib s q ops h rs H. unfold hplay in H.
  destruct (half_create toy lib s q (secret_for s) []) as [[[c|h0] fs]|u|] eqn:E; try discriminate.
  exists h0, [], fs. auto.
Qed.

Lemma good_ops_ok : hops_ok good_ops.
Proof. repeat constructor; cbn; unfold small_iov, two64; cbn; lia. Qed.
Lemma bad_ops_ok : hops_ok bad_ops.
Proof. repeat constructor; cbn; unfold small_iov, two64; cbn; lia. Qed.

Definition codes_eq_dec : forall x y : list code, {x = y} + {x <> y}.
Proof. repeat decide equality. Defined.

Lemma hplay_check : forall lib s q ops (f : half -> list hres -> bool),
  match hplay lib s q ops with Done (h, rs) => f h rs | _ => false end = true ->
  exists h rs, hreach toy lib s q (secret_for s) ops rs h /\ f h rs = true.
Proof.
  intros lib s q ops f H. destruct (hplay lib s q ops) as [[h rs]|u|] eqn:E; try discriminate.
  exists h, rs. split; [apply hplay_reach; exact E|exact H].
Qed.

Lemma good_case : forall lib s, exists h rs,
  hreach toy lib s 7 (secret_for s) good_ops rs h /\
  map hstatus rs = [kOk; kInternal; kOk; kOk] /\ no_failed_update rs /\ updates rs = 1%nat /\
  lenN (hc_used h) = 3 /\ hc_epoch h = 1.
Proof.
  intros lib s.
  destruct (hplay_check lib s 7 good_ops (fun h rs =>
    tests (codes_eq_dec (map hstatus rs) [kOk; kInternal; kOk; kOk]) &&
    (match rs with [HCrypt _ _ _; HCrypt _ _ _; HUpdated kOk; HCrypt _ _ _] => true | _ => false end) &&
    (lenN (hc_used h) =? 3) && (hc_epoch h =? 1))) as (h & rs & R & H);
    [destruct lib, s; vm_compute; reflexivity|].
  exists h, rs. split; [exact R|].
  repeat (apply andb_true_iff in H as [H ?]). apply tests_true in H.
  split; [exact H|].
  destruct rs as [|[]  [|[] [|[|[]] [|[] [|]]]]]; try discriminate.
  split; [|split; [reflexivity|split; apply N.eqb_eq; assumption]].
  intros st' [K|[K|[K|[K|[]]]]]; inversion K; reflexivity.
Qed.

Lemma bad_case : forall lib s, exists h rs,
  hreach toy lib s 7 (secret_for s) bad_ops rs h /\ In (HUpdated kInternal) rs.
Proof.
  intros lib s.
  destruct (hplay_check lib s 7 bad_ops (fun h rs =>
    match rs with [_; _; _; _; HUpdated kInternal; _] => true | _ => false end)) as (h & rs & R & H);
    [destruct lib, s; vm_compute; reflexivity|].
  exists h, rs. split; [exact R|].
  destruct rs as [|? [|? [|? [|? [|[|[]] [|? [|]]]]]]]; try discriminate. cbn; auto 10.
Qed.

(* Starting at the last sequence number: one record uses it up. *)
Definition last_ops : list (hop * faults) := [(enc_op, []); (enc_op, [])].
Lemma last_case : forall lib s, hops_ok last_ops /\ exists h rs,
  hreach toy lib s (two64 - 1) (secret_for s) last_ops rs h /\
  map hstatus rs = [kOk; kInternal] /\
  key_start (two64 - 1) (hc_epoch h) + lenN (nonces h (hc_epoch h)) = two64.
Proof.
  intros lib s. split; [repeat constructor; cbn; unfold small_iov, two64; cbn; lia|].
  destruct (hplay_check lib s (two64 - 1) last_ops (fun h rs =>
    tests (codes_eq_dec (map hstatus rs) [kOk; kInternal]) &&
    (key_start (two64 - 1) (hc_epoch h) + lenN (nonces h (hc_epoch h)) =? two64))) as (h & rs & R & H);
    [destruct lib, s; vm_compute; reflexivity|].
  exists h, rs. split; [exact R|]. apply andb_true_iff in H as [H1 H2].
  split; [exact (tests_true _ _ H1)|apply N.eqb_eq; exact H2].
Qed.
