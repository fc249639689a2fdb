(* Concrete frame protectors: cases for PropFrame.v, and counterexamples. *)
From Coq Require Import List NArith ZArith Bool Lia ZifyBool ZifyNat ZifyN.
From Verif Require Import Base BaseProofs Aead SpecAead Hkdf HalfConn SpecTls HalfProofs Options HsHandler SpecHs Crypter
  SpecRecord SpecRx CrypterProofs CrypterRun CrypterLemmas FrameProt SpecFrame FrameRun FrameProofs FrameRx FrameSim FrameLink FrameTrip FrameFinal
  Toy ToyProofs.
Import ListNotations.
Local Open Scope N_scope.

Definition toy_al : allocator := fun _ n => IoBuf (zeros n).
Lemma toy_al_ok : alloc_ok toy_al.
Proof. intros id n. exists (zeros n). split; [reflexivity|apply lenN_zeros]. Qed.

(* The two ends of a connection. *)
Definition fargs (s : suite) : fp_args :=
  {| fa_allocator := true; fa_destroy := true; fa_logger := true; fa_crypt := toy_args s 3 5 |}.
Definition fargs_peer (s : suite) : fp_args :=
  let c := toy_args s 3 5 in
  {| fa_allocator := true; fa_destroy := true; fa_logger := true;
     fa_crypt := {| ca_tls := TLS1_3; ca_suite := s; ca_connection_id := 78; ca_url := ascii_url;
       ca_identity := from_hostname [105];
       ca_in_secret := ca_out_secret c; ca_out_secret := ca_in_secret c;
       ca_in_seq := ca_out_seq c; ca_out_seq := ca_in_seq c;
       ca_sender := true; ca_channel := true; ca_logger := true |} |}.

Lemma fargs_create : forall lib s, exists f fs', fp_create toy lib (fargs s) [] = Done (inr f, fs').
Proof.
  intros lib s. destruct (F32 toy lib (fargs s) [] toy_ok eq_refl eq_refl) as (r & fs' & E & _ & _ & V).
  destruct V as (f & ->); [|reflexivity|eauto].
  repeat split; try discriminate; destruct s; reflexivity.
Qed.
Lemma fargs_peer_create : forall lib s, exists f fs', fp_create toy lib (fargs_peer s) [] = Done (inr f, fs').
Proof.
  intros lib s. destruct (F32 toy lib (fargs_peer s) [] toy_ok eq_refl eq_refl) as (r & fs' & E & _ & _ & V).
  destruct V as (f & ->); [|reflexivity|eauto].
  repeat split; try discriminate; destruct s; reflexivity.
Qed.
Lemma mirrored : forall s, f_out (fargs s) = f_in (fargs_peer s) /\ f_in (fargs s) = f_out (fargs_peer s).
Proof. intros s. split; reflexivity. Qed.

Lemma fresh_protector : forall lib s, exists f, protector toy lib toy_al (fargs s) [] [] f.
Proof.
  intros lib s. destruct (fargs_create lib s) as (f & fs' & E). exists f.
  split; [exact toy_ok|]. split; [exact toy_al_ok|]. split; [reflexivity|]. split; [reflexivity|]. split; [constructor|].
  exists f, [], fs'. split; [exact E|reflexivity].
Qed.

(* Cutting into single bytes. *)
Definition one_by_one (b : bytes) : list iovec := map (fun x => IoBuf [x]) b.
Lemma one_by_one_ok : cut_ok one_by_one.
Proof.
  intros b. split.
  - induction b as [|x b IH]; [reflexivity|]. unfold one_by_one, iov_concat in *. cbn [map flat_map iov_data app]. rewrite IH. reflexivity.
  - induction b as [|x b IH]; [constructor|]. constructor; [|exact IH]. exists [x]. split; [reflexivity|discriminate].
Qed.

(* Data both ways, two Protect calls delivered together, empty data. *)
Definition some_events : list levent :=
  [Send true [IoBuf [1; 2]; IoNull 0; IoBuf [3]]; Send true [IoBuf []]; Send false [IoBuf [9]];
   Deliver true 2 one_by_one; Deliver false 1 one_by_one; Deliver false 1 one_by_one].
Lemma some_events_ok : levents_ok [] [] some_events.
Proof.
  assert (H : forall k (q : list bytes), fold_right N.add 0 (map (fun m => protected_size (lenN m)) (firstn k q)) + 5 <? two64 = true ->
     forall u, levent_ok q (Deliver u k one_by_one)).
  { intros k q Hq u. split; [exact one_by_one_ok|]. apply N.ltb_lt. exact Hq. }
  assert (B : forall l, forallb (fun b => b <? 256) l = true -> bytes_ok l).
  { intros l Hl. apply Forall_forall. intros b Hb. rewrite forallb_forall in Hl. apply N.ltb_lt. apply Hl. exact Hb. }
  assert (S : forall u q input, Forall iov_valid input -> forallb (fun b => b <? 256) (iov_concat input) = true ->
     (protected_size (lenN (iov_concat input)) <? two64) = true -> levent_ok q (Send u input)).
  { intros u q input Hv Hb Hs. split; [exact Hv|]. split; [apply B; exact Hb|]. apply N.ltb_lt. exact Hs. }
  cbn [levents_ok some_events goes_up chan_step fst].
  split; [apply S; [repeat constructor|reflexivity|reflexivity]|].
  split; [apply S; [repeat constructor|reflexivity|reflexivity]|].
  split; [apply S; [repeat constructor|reflexivity|reflexivity]|].
  split; [apply H; reflexivity|]. cbn [chan_step firstn iov_concat flat_map iov_data app fst].
  split; [apply H; reflexivity|]. split; [apply H; reflexivity|exact I].
Qed.
Lemma some_results : channel [] [] some_events =
  [Sent kOk; Sent kOk; Sent kOk; Delivered kOk [1; 2; 3]; Delivered kOk [9]; Idle].
Proof. reflexivity. Qed.

(* ---- histories ---- *)
Definition fplay (lib : ssl_lib) (a : fp_args) (ops : list (fop * faults)) : outcome (fprot * list fres) :=
  match fp_create toy lib a [] with Done (inr f, _) => frun toy lib toy_al f ops | _ => NoFuel end.

Lemma fplay_check : forall lib a ops chk, match fplay lib a ops with Done (f, rs) => chk f rs | _ => false end = true ->
  ca_in_seq (fa_crypt a) < two64 -> ca_out_seq (fa_crypt a) < two64 -> fops_ok ops ->
  exists f rs, protector toy lib toy_al a ops rs f /\ chk f rs = true.
Proof.
  intros lib a ops chk H Hi Ho Hok. unfold fplay in H.
  destruct (fp_create toy lib a []) as [[[c|f0] fs']|u|] eqn:E; try discriminate.
  destruct (frun toy lib toy_al f0 ops) as [[f rs]|u|] eqn:E2; try discriminate.
  exists f, rs. split; [|exact H]. split; [exact toy_ok|]. split; [exact toy_al_ok|]. split; [exact Hi|]. split; [exact Ho|].
  split; [exact Hok|]. exists f0, [], fs'. auto.
Qed.

(* What the peer sends: the records with the given contents. *)
Definition from_peer (s : suite) (bs : list bytes) : bytes := records toy (f_in (fargs s)) bs.

Lemma bytes_check : forall l, forallb (fun b => b <? 256) l = true -> bytes_ok l.
Proof.
  intros l Hl. apply Forall_forall. intros b Hb. rewrite forallb_forall in Hl. apply N.ltb_lt. apply Hl. exact Hb.
Qed.

Definition S0 : suite := AES_128_GCM_SHA256.
Definition rec2 : bytes := from_peer S0 [[1; 2; 3]; [4]].

Lemma unprotect_ok : forall v, (sum_lens v + 5 <? two64) && forallb (fun b => b <? 256) (iov_concat v) = true -> Forall iov_valid v ->
  fop_ok (FUnprotect v).
Proof.
  intros v H Hv. apply andb_prop in H. destruct H as [H1 H2]. split; [exact Hv|]. split; [apply bytes_check; exact H2|].
  apply N.ltb_lt. exact H1.
Qed.

(* Two records received, then one protected. *)
Definition ops2 : list (fop * faults) := [(FUnprotect [IoBuf rec2], []); (FProtect [IoBuf [7; 7]], [])].
Lemma ops2_ok : fops_ok ops2.
Proof.
  apply Forall_cons; [apply unprotect_ok; [vm_compute; reflexivity|repeat constructor]|].
  apply Forall_cons; [apply N.ltb_lt; vm_compute; reflexivity|apply Forall_nil].
Qed.
Definition got (r : fres) : option (code * list bytes) :=
  match r with FUnprotected st bs | FProtected st bs => Some (st, map fb_bytes bs) | _ => None end.
Definition code_is (c d : code) : bool := code_eqb c d.
Fixpoint bytes_eqb (a b : bytes) : bool :=
  match a, b with [], [] => true | x :: a', y :: b' => (x =? y) && bytes_eqb a' b' | _, _ => false end.
Lemma bytes_eqb_eq : forall a b, bytes_eqb a b = true -> a = b.
Proof.
  induction a as [|x a IH]; intros [|y b] H; try discriminate; [reflexivity|]. cbn in H. apply andb_prop in H.
  destruct H as [H1 H2]. apply N.eqb_eq in H1. subst. f_equal. auto.
Qed.

Lemma code_eqb_eq : forall a b, code_eqb a b = true -> a = b.
Proof. intros [] [] H; try discriminate; reflexivity. Qed.

Lemma two_received : exists f rs, protector toy OpenSSL toy_al (fargs S0) ops2 rs f /\
  exists bs1 bs2, rs = [FUnprotected kOk bs1; FProtected kOk bs2] /\ map fb_bytes bs1 = [[1; 2; 3]; [4]] /\
    fp_events f = [EvAlloc 0 20; EvAlloc 1 18; EvAlloc 2 24].
Proof.
  destruct (fplay_check OpenSSL (fargs S0) ops2 (fun f rs =>
    match rs, fp_events f with
    | [FUnprotected st1 [b1; b2]; FProtected st2 bs2], [EvAlloc 0 20; EvAlloc 1 18; EvAlloc 2 24] =>
      code_eqb st1 kOk && code_eqb st2 kOk && bytes_eqb (fb_bytes b1) [1; 2; 3] && bytes_eqb (fb_bytes b2) [4]
    | _, _ => false end)) as (f & rs & Hp & Hc); [vm_compute; reflexivity|reflexivity|reflexivity|exact ops2_ok|].
  exists f, rs. split; [exact Hp|].
  destruct rs as [|[st1 bs1|st1 out1|st1 bs1|st1 out1 n1] [|[st2 bs2|st2 out2|st2 bs2|st2 out2 n2] [|r3 rs]]]; try discriminate;
    try (destruct bs1 as [|b1 [|b2 [|b3 bs1]]]; discriminate).
  destruct bs1 as [|b1 [|b2 [|b3 bs1]]]; try discriminate.
  assert (Hev : fp_events f = [EvAlloc 0 20; EvAlloc 1 18; EvAlloc 2 24] /\
    code_eqb st1 kOk && code_eqb st2 kOk && bytes_eqb (fb_bytes b1) [1; 2; 3] && bytes_eqb (fb_bytes b2) [4] = true).
  { revert Hc. generalize (fp_events f). intros es Hc.
    repeat (match type of Hc with context [match ?z with _ => _ end] => is_var z; destruct z; try discriminate end). auto. }
  destruct Hev as [Hev Hc2]. apply andb_prop in Hc2. destruct Hc2 as [Hc2 A4]. apply andb_prop in Hc2. destruct Hc2 as [Hc2 A3].
  apply andb_prop in Hc2. destruct Hc2 as [A1 A2]. apply code_eqb_eq in A1, A2. apply bytes_eqb_eq in A3, A4. subst.
  exists [b1; b2], bs2. split; [reflexivity|]. split; [cbn [map]; rewrite A3, A4; reflexivity|exact Hev].
Qed.
