(* Every half connection leaves the errors of its key derivation in the queue. *)
From Coq Require Import List NArith Bool.
From Verif Require Import Base Aead Hkdf HalfConn SpecAead SpecTls HalfProofs HalfRun HalfRunProofs ErrQueue SpecErr ErrQueueProofs.
Import ListNotations.
Local Open Scope N_scope.

Lemma update_misreported : forall P lib s n secret ops rs h hs i q fs x next,
  prims_ok P -> n < two64 -> hops_ok ops -> hreach P lib s n secret ops rs h -> nth_error hs i = Some h ->
  exists hs' c, tstep P lib hs q (TUse i HUpdateKey) (true :: fs) (x :: next) = Done (hs', c) /\
    s_code c = kInternal /\ s_raised c = x /\ s_text c = [] /\ s_queue c = q ++ x /\
    forall op fs' next' hs'' c', tstep P lib hs' (s_queue c) op fs' next' = Done (hs'', c') ->
      derives_keys op = false -> s_raised c' <> [] -> s_text c' = q ++ x ++ s_raised c'.
Proof.
  intros P lib s n secret ops rs h hs i q fs x next HP Hn Ho Hr I.
  destruct (hreach_inv _ _ _ _ _ _ _ _ HP Hn Ho Hr) as [R _].
  assert (L : lenN (hc_secret h) = suite_secret_size (hc_suite h)).
  { rewrite (hr_secret_len _ _ _ R), (hr_suite _ _ _ R). destruct (d_suite _); reflexivity. }
  destruct (update_leaves P lib hs q i h fs x next I L) as [hs' E].
  eexists _, _. split; [exact E|]. cbn [s_code s_raised s_text s_queue]. repeat (split; [reflexivity|]).
  intros op fs' next' hs'' c' H D N. destruct (each_call _ _ _ _ _ _ _ _ _ H) as [_ [_ K]].
  destruct (K D) as [[T _]|[_ [Z _]]]; [|destruct (N Z)]. rewrite T, <- app_assoc. reflexivity.
Qed.

Lemma create_misreported : forall P lib hs q s sequence secret fs x next, lenN secret = suite_secret_size s ->
  exists c, tstep P lib hs q (TCreate s sequence secret) (true :: fs) (x :: next) = Done (hs, c) /\
    s_code c = kInternal /\ s_raised c = x /\ s_text c = [] /\ s_queue c = q ++ x.
Proof.
  intros P lib hs q s sequence secret fs x next E. eexists. split; [apply create_leaves, E|]. repeat split.
Qed.
