(* A writing and a reading thread: a concrete case, and the race. *)
From Coq Require Import List NArith ZArith Bool Lia ZifyBool ZifyNat ZifyN.
From Verif Require Import Base BaseProofs Aead SpecAead Hkdf HalfConn SpecTls Options HsHandler Crypter
  SpecRecord CrypterRun FrameProt SpecFrame FrameRun FrameRef Toy ToyProofs FrameExamples RecordExamples
  Conc ConcPair ConcRefuted.
Import ListNotations.
Local Open Scope N_scope.

Definition p_writes : list (fop * faults) :=
  [(FProtect [IoBuf [1; 2]; IoBuf [3]], []); (FProtectInto [IoBuf [9]] 77 (zeros 24), [])].
Definition p_reads : list (fop * faults) :=
  [(FUnprotect [IoBuf (from_peer S0 [[5]; [6; 7]])], []);
   (FUnprotectInto [IoBuf (tls_record toy (dir_next (dir_next (f_in (fargs S0)))) 23 [8] 0)] (zeros 20), [])].
(* The same after a KeyUpdate. *)
Definition p_update : list (fop * faults) := [(FUnprotect [IoBuf (ku_record S0)], [])].
Definition p_weave : list bool := concat (repeat [true; false] 110).

Definition answer_eq_dec : forall x y : list answer, {x = y} + {x <> y}.
Proof. repeat decide equality. Defined.
Definition ended (t : side) : bool :=
  match sd_now t, sd_todo t with None, [] => true | _, _ => false end.

Lemma p_check :
  match fp_create toy OpenSSL (fargs S0) [] with
  | Done (inr f, _) =>
    match frun toy OpenSSL toy_al f p_reads, frun toy OpenSSL toy_al f p_update with
    | Done (fu, ru), Done (fk, _) =>
      (if answer_eq_dec (map answer_of ru) [ABuffers kOk [[5]; [6; 7]]; ARead kOk ([8; 23] ++ zeros 18) 1] then true else false) &&
      negb (hc_epoch (cx_in (fp_crypt f)) =? hc_epoch (cx_in (fp_crypt fk))) &&
      match pair_run toy OpenSSL toy_al p_weave (fp_crypt f) (side_start f p_writes) (side_start f p_reads) with
      | Done (x, t, u) => ended t && ended u
      | _ => false
      end
    | _, _ => false
    end
  | _ => false
  end = true.
Proof. vm_compute. reflexivity. Qed.

Lemma p_case : exists f fu ru fk rk x t u, protector toy OpenSSL toy_al (fargs S0) [] [] f /\
  Forall (fun p => writes (fst p)) p_writes /\ fops_ok p_writes /\ Forall (fun p => reads (fst p)) p_reads /\
  frun toy OpenSSL toy_al f p_reads = Done (fu, ru) /\
  map answer_of ru = [ABuffers kOk [[5]; [6; 7]]; ARead kOk ([8; 23] ++ zeros 18) 1] /\
  pair_run toy OpenSSL toy_al p_weave (fp_crypt f) (side_start f p_writes) (side_start f p_reads) = Done (x, t, u) /\
  side_end t /\ side_end u /\
  frun toy OpenSSL toy_al f p_update = Done (fk, rk) /\
  hc_epoch (cx_in (fp_crypt f)) <> hc_epoch (cx_in (fp_crypt fk)).
Proof.
  pose proof p_check as H.
  destruct (fp_create toy OpenSSL (fargs S0) []) as [[[c|f] fs]|u|] eqn:Ec; try discriminate.
  destruct (frun toy OpenSSL toy_al f p_reads) as [[fu ru]|u|] eqn:Eu; try discriminate.
  destruct (frun toy OpenSSL toy_al f p_update) as [[fk rk]|u|] eqn:Ek; try discriminate.
  apply andb_prop in H. destruct H as [H H3]. apply andb_prop in H. destruct H as [H1 H2].
  destruct (pair_run toy OpenSSL toy_al p_weave (fp_crypt f) (side_start f p_writes) (side_start f p_reads)) as [[[x t] u]|v|] eqn:Ep; try discriminate.
  exists f, fu, ru, fk, rk, x, t, u.
  split. { split; [exact toy_ok|]. split; [exact toy_al_ok|]. split; [reflexivity|]. split; [reflexivity|]. split; [constructor|].
           exists f, [], fs. split; [exact Ec|reflexivity]. }
  split; [repeat constructor|].
  split. { constructor; [apply N.ltb_lt; vm_compute; reflexivity|]. constructor; [apply N.ltb_lt; vm_compute; reflexivity|constructor]. }
  split; [repeat constructor|]. split; [exact Eu|].
  split. { destruct (answer_eq_dec (map answer_of ru) _) as [E|E]; [exact E|discriminate]. }
  split; [exact Ep|]. apply andb_prop in H3. destruct H3 as [A B].
  assert (E : forall t, ended t = true -> side_end t).
  { intros t0 K. unfold ended in K. destruct (sd_now t0) eqn:N1; [discriminate|]. destruct (sd_todo t0) eqn:N2; [|discriminate]. split; assumption. }
  split; [apply E; exact A|]. split; [apply E; exact B|]. split; [exact Ek|].
  apply N.eqb_neq. destruct (hc_epoch (cx_in (fp_crypt f)) =? hc_epoch (cx_in (fp_crypt fk))); [discriminate|reflexivity].
Qed.
