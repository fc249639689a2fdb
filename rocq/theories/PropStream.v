(* One direction of a connection with an attacker on the wire: C66. *)
From Coq Require Import List NArith Bool.
From Verif Require Import Base Aead Hkdf HalfConn SpecAead SpecTls Options HsHandler Crypter SpecHs SpecRecord SpecRx
  CrypterRun FrameProt SpecFrame FrameRun Toy FrameExamples FrameRef SpecStream StreamProofs StreamExample.
Import ListNotations.
Local Open Scope N_scope.

(* C66, in full: whatever an attacker who forges nothing does to the bytes
   between the two sides, and whatever the calls answer, the contents handed
   over are a prefix of the contents sent. This is false, see the refutations
   below. What holds: the contents handed over are those sent in their order,
   none twice, none altered, possibly with some left out; as long as no read
   has reported an error, none is left out. *)
Theorem C66_prefix_until_error_partial : forall P lib al a ops rs f bs,
  protector P lib al a ops rs f -> never_forged P (f_in a) bs ops ->
  subseq (delivered ops (map answer_of rs)) bs /\
  (everywhere read_ok ops (map answer_of rs) -> exists later, bs = delivered ops (map answer_of rs) ++ later).
Proof. exact F66. Qed.
Print Assumptions C66_prefix_until_error_partial.

(* The same for the two ends of a connection: the bytes sent are the records
   of the data written, and without an error the data read are a prefix of the
   data written. *)
Theorem C66_end_to_end_partial : forall P liba libb ala alb aa ab opsa opsb rsa rsb f g sa sb,
  protector P liba ala aa opsa rsa f -> protector P libb alb ab opsb rsb g ->
  f_out aa = f_in ab -> f_out ab = f_in aa -> sent opsa sa -> sent opsb sb ->
  never_forged P (f_in ab) sa opsb -> never_forged P (f_in aa) sb opsa ->
  everywhere write_ok opsa (map answer_of rsa) ->
  on_the_wire opsa (map answer_of rsa) = records P (f_in ab) sa /\ concat sa = written opsa /\
  subseq (delivered opsb (map answer_of rsb)) sa /\
  (everywhere read_ok opsb (map answer_of rsb) ->
     exists later, written opsa = concat (delivered opsb (map answer_of rsb)) ++ later).
Proof. exact F66both. Qed.
Print Assumptions C66_end_to_end_partial.

Example C66_case : exists rsa f rsb g,
  protector marked OpenSSL toy_al (fargs_peer S0) s_opsa rsa f /\
  protector marked OpenSSL toy_al (fargs S0) s_opsb rsb g /\
  f_out (fargs_peer S0) = f_in (fargs S0) /\ f_out (fargs S0) = f_in (fargs_peer S0) /\
  sent s_opsa s_blocks /\ sent s_opsb [[9]] /\
  never_forged marked (f_in (fargs S0)) s_blocks s_opsb /\
  never_forged marked (f_in (fargs_peer S0)) [[9]] s_opsa /\
  everywhere write_ok s_opsa (map answer_of rsa) /\ everywhere read_ok s_opsb (map answer_of rsb) /\
  delivered s_opsb (map answer_of rsb) = [[1; 2; 3]; [4]].
Proof. exact s_case. Qed.

(* A failed decryption is not fatal and uses up a sequence number, so records
   can be left out of the middle. *)
Theorem C66_prefix_refuted : exists P lib al a bs ops rs f,
  protector P lib al a ops rs f /\ never_forged P (f_in a) bs ops /\
  ~ exists later, bs = delivered ops (map answer_of rs) ++ later.
Proof. exact F66refuted. Qed.
Print Assumptions C66_prefix_refuted.

(* This is so for all primitives, and for any number of records: giving record
   [k] to a new protector [k + 1] times yields [k] errors and then its content,
   and the records before it are lost. All that is asked is that the record is
   not authentic for a smaller sequence number. *)
Theorem C66_any_number_lost : forall P lib al a k b r rs f,
  r = tls_record P (dir_adv (f_in a) k) ty_application_data b 0 -> lenN b <= 16384 ->
  d_seq (f_in a) + k < two64 -> (forall i msg, i < k -> r <> tls_ciphertext P (dir_adv (f_in a) i) msg) ->
  protector P lib al a (repeat (FUnprotect [IoBuf r], []) (N.to_nat k + 1)) rs f ->
  map answer_of rs = repeat (ABuffers kInternal []) (N.to_nat k) ++ [ABuffers kOk [b]].
Proof. exact F66skip. Qed.
Print Assumptions C66_any_number_lost.

Example C66_lost_case : exists rs f, protector marked OpenSSL toy_al (fargs S0) s_twice rs f /\
  never_forged marked (f_in (fargs S0)) s_blocks s_twice /\
  (forall i msg, i < 1 -> s_rec 1 [4] <> tls_ciphertext marked (dir_adv (f_in (fargs S0)) i) msg) /\
  delivered s_twice (map answer_of rs) = [[4]].
Proof. exact s_lost. Qed.

(* Bytes appended to a good record make the call fail; the record's content is
   discarded, its sequence number is used up, and the next record is accepted:
   again for all primitives. *)
Theorem C66_appended_bytes_lose_data : forall P lib al a b0 b1 junk rs f,
  lenN b0 <= 16384 -> lenN b1 <= 16384 -> d_seq (f_in a) + 1 < two64 ->
  22 <= lenN junk -> ~ starts_with_record junk ->
  protector P lib al a
    [(FUnprotect [IoBuf (tls_record P (f_in a) ty_application_data b0 0 ++ junk)], []);
     (FUnprotect [IoBuf (tls_record P (dir_next (f_in a)) ty_application_data b1 0)], [])] rs f ->
  map answer_of rs = [ABuffers kFailedPrecondition []; ABuffers kOk [b1]].
Proof. exact F66junk. Qed.
Print Assumptions C66_appended_bytes_lose_data.

Example C66_junk_case : ~ starts_with_record (zeros 22) /\ exists rs f,
  protector marked OpenSSL toy_al (fargs S0) s_junk rs f /\
  never_forged marked (f_in (fargs S0)) s_blocks s_junk /\
  delivered s_junk (map answer_of rs) = [[4]].
Proof. exact s_junk_case. Qed.
