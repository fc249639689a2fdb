(* HKDF: C09. *)
From Coq Require Import List NArith Bool.
From Verif Require Import Base Aead Hkdf SpecTls HkdfProofs Toy ToyProofs.
Import ListNotations.
Local Open Scope N_scope.

(* [prk out] is the contents of the secret vector when the output vector holds
   [out]: [fun _ => secret] for distinct vectors, [fun o => o] if the caller
   passes the same vector as secret and output. [fs] are the library failures;
   no failure is [fs = []]. *)
Theorem C09_derive_secret_is_hkdf_expand : forall P h prk info out fs,
  prims_ok P -> lenN out + digest_size h < two64 ->
  exists st out' fs',
    hkdf_derive_secret P h prk info out fs = Done ((st, out'), fs') /\
    lenN out' = lenN out /\
    (st = kOk -> digest_size h <= lenN (prk out) /\ lenN out <= 255 * digest_size h /\
       out' = hkdf_expand P h (prk out) info (lenN out)) /\
    (lenN (prk out) < digest_size h -> st = kInvalidArgument /\ out' = out /\ fs' = fs) /\
    (digest_size h <= lenN (prk out) -> 255 * digest_size h < lenN out ->
       st = kInternal /\ out' = out /\ fs' = fs) /\
    (st = kOk \/ st = kInvalidArgument \/ st = kInternal) /\
    (digest_size h <= lenN (prk out) -> lenN out <= 255 * digest_size h -> fs = [] ->
       st = kOk /\ fs' = []).
Proof. exact hkdf_derive_secret_spec. Qed.
Print Assumptions C09_derive_secret_is_hkdf_expand.

(* Three blocks, the secret being overwritten (aliased), no failure. *)
Example C09_case : prims_ok toy /\ lenN (zeros 80) + digest_size SHA256 < two64 /\
  digest_size SHA256 <= lenN ((fun o : bytes => o) (zeros 80)) /\
  hkdf_derive_secret toy SHA256 (fun o => o) [1; 2] (zeros 80) [] =
    Done ((kOk, hkdf_expand toy SHA256 (zeros 80) [1; 2] 80), []).
Proof. split; [exact toy_ok|]. split; [reflexivity|]. split; [discriminate|]. vm_compute. reflexivity. Qed.
