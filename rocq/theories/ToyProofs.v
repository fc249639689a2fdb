From Coq Require Import List NArith Bool Lia.
From Verif Require Import Base BaseProofs Aead Hkdf HalfConn Options HsHandler Crypter SpecTls
  SpecRecord SpecHs SpecRx CrypterRun CrypterRunProofs HalfProofs CrypterLemmas Toy.
Import ListNotations.
Local Open Scope N_scope.

Lemma toy_ok : prims_ok toy.
Proof.
  constructor; cbn [toy p_hmac p_ks p_mac]; intros.
  - unfold lenN; rewrite be_bytes_length. lia.
  - apply be_bytes_ok.
  - unfold byte_ok. apply N.mod_lt. discriminate.
  - unfold lenN; rewrite be_bytes_length. reflexivity.
  - apply be_bytes_ok.
Qed.

Lemma play_reach : forall P lib a ops x rs, play P lib a ops = Done (x, rs) -> creach P lib a ops rs x.
Proof.
  intros P lib a ops x rs E. unfold play in E.
  destruct (crypt_create P lib a []) as [[[c|x0] fs]|u|] eqn:Ec; try discriminate.
  exists x0, [], fs. auto.
Qed.

(* Running a history and testing its result. *)
Lemma play_check : forall P lib a ops (f : crypt -> list cres -> bool),
  match play P lib a ops with Done (x, rs) => f x rs | _ => false end = true ->
  exists x rs, creach P lib a ops rs x /\ f x rs = true.
Proof.
  intros P lib a ops f H. destruct (play P lib a ops) as [[x rs]|u|] eqn:E; try discriminate.
  exists x, rs. split; [apply play_reach; exact E|exact H].
Qed.

Definition scode_eq_dec : forall x y : scode, {x = y} + {x <> y}.
Proof. decide equality. Defined.

Definition statuses_eq_dec : forall x y : list (option (scode * N)), {x = y} + {x <> y}.
Proof. repeat decide equality. Defined.

Definition tests {Q : Prop} (d : {Q} + {~ Q}) : bool := if d then true else false.
Lemma tests_true : forall Q (d : {Q} + {~ Q}), tests d = true -> Q.
Proof. intros Q [q|n] H; [exact q|discriminate]. Qed.
