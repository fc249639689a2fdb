(* Specification for one direction of a connection with an attacker on the
   wire: what one side has sent, what the other side is given, what it hands
   over. *)
From Coq Require Import List NArith Bool.
From Verif Require Import Base Aead Hkdf SpecAead SpecTls SpecRecord SpecFrame FrameProt FrameRun FrameRef.
Import ListNotations.
Local Open Scope N_scope.

(* ---- the sender ---- *)
Definition write_ok (op : fop) (a : answer) : Prop :=
  match op, a with
  | FProtect _, ABuffers st _ | FProtectInto _ _ _, AInto st _ => st = kOk
  | _, _ => True
  end.
(* What a write puts on the wire: the returned buffers, or the part of the
   caller's buffer that the records take. *)
Definition wire_of (op : fop) (a : answer) : bytes :=
  match op, a with
  | FProtect _, ABuffers _ bs => concat bs
  | FProtectInto input _ _, AInto _ buf => takeN (protected_size (lenN (iov_concat input))) buf
  | _, _ => []
  end.
(* The record contents a call sends: its data cut into blocks. *)
Definition blocks_in (op : fop) (bs : list bytes) : Prop :=
  match op with
  | FProtect input | FProtectInto input _ _ => blocks_of (iov_concat input) bs
  | _ => bs = []
  end.
Definition data_of (op : fop) : bytes :=
  match op with FProtect input | FProtectInto input _ _ => iov_concat input | _ => [] end.

(* ---- the receiver ---- *)
Definition read_ok (op : fop) (a : answer) : Prop :=
  match op, a with
  | FUnprotect _, ABuffers st _ | FUnprotectInto _ _, ARead st _ _ => st = kOk
  | _, _ => True
  end.
(* The contents a read hands over, record by record. *)
Definition contents_of (op : fop) (a : answer) : list bytes :=
  match op, a with
  | FUnprotect _, ABuffers kOk cs => cs
  | FUnprotectInto _ _, ARead kOk buf n => [takeN n buf]
  | _, _ => []
  end.

Section Histories.
Context {A : Type}.
Variable f : fop -> answer -> list A.
Fixpoint collect (ops : list (fop * faults)) (rs : list answer) : list A :=
  match ops, rs with
  | (op, _) :: ops', r :: rs' => f op r ++ collect ops' rs'
  | _, _ => []
  end.
End Histories.
Fixpoint everywhere (Q : fop -> answer -> Prop) (ops : list (fop * faults)) (rs : list answer) : Prop :=
  match ops, rs with
  | (op, _) :: ops', r :: rs' => Q op r /\ everywhere Q ops' rs'
  | _, _ => True
  end.
Definition on_the_wire : list (fop * faults) -> list answer -> bytes := collect wire_of.
Definition written : list (fop * faults) -> bytes := fun ops => concat (map (fun p => data_of (fst p)) ops).
Fixpoint sent (ops : list (fop * faults)) (bs : list bytes) : Prop :=
  match ops with
  | [] => bs = []
  | (op, _) :: ops' => exists b1 b2, bs = b1 ++ b2 /\ blocks_in op b1 /\ sent ops' b2
  end.
Definition delivered : list (fop * faults) -> list answer -> list bytes := collect contents_of.

(* ---- the attacker ---- *)
(* The attacker may cut, drop, repeat, reorder, alter and invent bytes, but
   forges no record: whatever record inside the data is authentic for the
   [i]-th sequence number from [d] on is the [i]-th record sent, its content
   being the [i]-th of [bs]. *)
Definition no_forgery (P : prims) (d : dir) (bs : list bytes) (data : bytes) : Prop :=
  forall i p pre post msg, data = pre ++ framed p ++ post -> lenN p < 65536 ->
    dir_usable (dir_adv d i) -> p = dir_seal P (dir_adv d i) (tls_header (lenN p)) msg ->
    exists b, nth_error bs (N.to_nat i) = Some b /\
      framed p = tls_record P (dir_adv d i) ty_application_data b 0.
Definition given (op : fop) : bytes :=
  match op with FUnprotect input | FUnprotectInto input _ => iov_concat input | _ => [] end.
Definition never_forged (P : prims) (d : dir) (bs : list bytes) (ops : list (fop * faults)) : Prop :=
  Forall (fun p => no_forgery P d bs (given (fst p))) ops.

(* [l] is [m] with some elements left out. *)
Inductive subseq {A} : list A -> list A -> Prop :=
| SubNil : subseq [] []
| SubSkip : forall x l m, subseq l m -> subseq l (x :: m)
| SubTake : forall x l m, subseq l m -> subseq (x :: l) (x :: m).
