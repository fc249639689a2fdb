(* Without interference the programs of Conc.v compute what the functions of
   the sequential model compute. *)
From Coq Require Import List NArith Bool Lia.
From Verif Require Import Base Aead Hkdf HalfConn Options HsHandler Crypter FrameProt Conc.
Import ListNotations.
Local Open Scope N_scope.

Lemma alone_pbind : forall S A B (p : prog S A) (k : A -> prog S B) s,
  alone (pbind p k) s = obind (alone p s) (fun '(s, a) => alone (k a) s).
Proof.
  induction p as [a|C f k' IH]; intros k s; cbn; [reflexivity|].
  destruct (f s) as [[s1 b]|u|]; cbn; auto.
Qed.

Lemma alone_cbind : forall S A B (m : C S A) (k : A -> C S B) fs s,
  alone (cbind m k fs) s = obind (alone (m fs) s) (fun '(s, (a, fs)) => alone (k a fs) s).
Proof.
  intros. unfold cbind. rewrite alone_pbind. destruct (alone (m fs) s) as [[s1 [a fs1]]|u|]; reflexivity.
Qed.

Lemma alone_act : forall S A (f : S -> outcome (S * A)) fs s,
  alone (act f fs) s = obind (f s) (fun '(s, a) => Done (s, (a, fs))).
Proof. intros. cbn. destruct (f s) as [[s1 a]|u|]; reflexivity. Qed.

Lemma alone_actM : forall S A (f : S -> M (S * A)) fs s,
  alone (actM f fs) s = obind (f s fs) (fun '((s, a), fs) => Done (s, (a, fs))).
Proof. intros. cbn. destruct (f s fs) as [[[s1 a] fs1]|u|]; reflexivity. Qed.

Lemma alone_own : forall S A (o : outcome A) fs (s : S),
  alone (own o fs) s = obind o (fun a => Done (s, (a, fs))).
Proof. intros. cbn. destruct o; reflexivity. Qed.

Lemma alone_cret : forall S A (a : A) fs (s : S), alone (cret a fs) s = Done (s, (a, fs)).
Proof. reflexivity. Qed.

Lemma bind_eq : forall A B (m : M A) (k : A -> M B) fs,
  bind m k fs = obind (m fs) (fun '(a, fs) => k a fs).
Proof. intros. cbv beta delta [bind]. destruct (m fs) as [[a fs1]|u|]; reflexivity. Qed.
Lemma lift_eq : forall A (o : outcome A) fs, lift o fs = obind o (fun a => Done (a, fs)).
Proof. intros. cbv beta delta [lift]. destruct o; reflexivity. Qed.

Ltac sq := repeat first [rewrite alone_cbind | rewrite alone_act | rewrite alone_actM
                        | rewrite alone_own | rewrite alone_cret
                        | rewrite bind_eq | rewrite lift_eq | progress cbn [obind ret]].

(* ---- half connection ---- *)
Lemma encrypt_alone : forall P aad pt out fs h,
  alone (encrypt_body P aad pt out fs) h =
  obind (half_encrypt P h aad pt out fs) (fun '((h, st, out), fs) => Done (h, ((st, out), fs))).
Proof.
  intros P aad pt out fs h. unfold encrypt_body, check_usable, half_encrypt. sq. cbn [obind].
  destruct (hc_aead h) as [c|] eqn:Ec; cbn [negb]; [|reflexivity].
  destruct (hc_always_fail h || hc_overflowed h); cbn [negb]; [reflexivity|].
  unfold read_nonce, increment, through_crypter. sq.
  unfold bind at 1, lift, nonce_mask. destruct (lenN (hc_nonce h) <? 8); cbn [obind]; [reflexivity|].
  sq. cbn [obind]. sq. cbn [hc_aead]. rewrite Ec. sq.
  match goal with |- context [aead_encrypt P c ?n aad pt out fs] =>
    destruct (aead_encrypt P c n aad pt out fs) as [[[[c1 st1] out1] fs1]|u|] end; reflexivity.
Qed.

Lemma decrypt_alone : forall P aad ct out fs h,
  alone (decrypt_body P aad ct out fs) h =
  obind (half_decrypt P h aad ct out fs) (fun '((h, st, out), fs) => Done (h, ((st, out), fs))).
Proof.
  intros P aad pt out fs h. unfold decrypt_body, check_usable, half_decrypt. sq. cbn [obind].
  destruct (hc_aead h) as [c|] eqn:Ec; cbn [negb]; [|reflexivity].
  destruct (hc_always_fail h || hc_overflowed h); cbn [negb]; [reflexivity|].
  unfold read_nonce, increment, through_crypter. sq.
  unfold bind at 1, lift, nonce_mask. destruct (lenN (hc_nonce h) <? 8); cbn [obind]; [reflexivity|].
  sq. cbn [obind]. sq. cbn [hc_aead]. rewrite Ec. sq.
  match goal with |- context [aead_decrypt P c ?n aad pt out fs] =>
    destruct (aead_decrypt P c n aad pt out fs) as [[[[c1 st1] out1] fs1]|u|] end; reflexivity.
Qed.

Lemma update_alone : forall P lib fs h,
  alone (update_body P lib fs) h =
  obind (half_update_key P lib h fs) (fun '((h, st), fs) => Done (h, (st, fs))).
Proof.
  intros P lib fs h. unfold update_body, half_update_key. sq. sq.
  destruct (advance_secret P (hc_suite h) (hc_secret h) fs) as [[[st secret] fs1]|u|]; cbn [obind ret]; [|reflexivity|reflexivity].
  destruct (is_ok st); cbn [negb]; [|reflexivity].
  sq. sq. cbn [with_keys hc_suite hc_secret hc_key_size hc_nonce].
  destruct (derive_key P (hc_suite h) secret (zeros (hc_key_size h)) fs1) as [[[st2 key] fs2]|u|]; cbn [obind ret]; [|reflexivity|reflexivity].
  destruct (is_ok st2); cbn [negb]; [|reflexivity].
  sq. sq. cbn [with_keys hc_suite hc_secret hc_key_size hc_nonce].
  destruct (derive_nonce P (hc_suite h) secret (hc_nonce h) fs2) as [[[st3 nonce] fs3]|u|]; cbn [obind ret]; [|reflexivity|reflexivity].
  destruct (is_ok st3); cbn [negb]; [|reflexivity].
  sq. sq. cbn [with_keys hc_suite].
  destruct (create_crypter lib (hc_suite h) key fs3) as [[[st4|c] fs4]|u|]; reflexivity.
Qed.

(* ---- crypter ---- *)
Lemma tag_alone : forall fs x,
  alone (tag_in fs) x = obind (half_tag_length (cx_in x)) (fun t => Done (x, (t, fs))).
Proof.
  intros. unfold tag_in. sq. cbn [obind load_in]. sq. unfold use_in, use_tag, load_tag, half_tag_length.
  destruct (hc_aead (cx_in x)) eqn:E; cbn [obind]; [rewrite N.eqb_refl|]; reflexivity.
Qed.
Lemma tag_out_alone : forall fs x,
  alone (tag_out fs) x = obind (half_tag_length (cx_out x)) (fun t => Done (x, (t, fs))).
Proof.
  intros. unfold tag_out. sq. cbn [obind load_out]. sq. unfold use_out, use_tag, load_tag, half_tag_length.
  destruct (hc_aead (cx_out x)) eqn:E; cbn [obind]; [rewrite N.eqb_refl|]; reflexivity.
Qed.

Lemma overhead_alone : forall fs x,
  alone (overhead_c fs) x = obind (record_overhead x) (fun o => Done (x, (o, fs))).
Proof.
  intros. unfold overhead_c, record_overhead. sq. rewrite tag_alone.
  destruct (half_tag_length (cx_in x)); reflexivity.
Qed.

Lemma crypt_protect_alone : forall P t pt record fs x,
  alone (crypt_protect_c P t pt record fs) x =
  obind (crypt_protect P x t pt record fs) (fun '((x, st, out), fs) => Done (x, ((st, out), fs))).
Proof.
  intros P t pt record fs x. unfold crypt_protect_c, crypt_protect, protect_checks.
  destruct (kTlsMaxPlaintextSize <? total_len pt); [reflexivity|].
  sq. rewrite overhead_alone. sq.
  destruct (record_overhead x) as [o|u|]; cbn [obind]; [|reflexivity|reflexivity].
  destruct (iov_len record <? total_len pt + o); [reflexivity|].
  sq. rewrite tag_out_alone. sq.
  destruct (half_tag_length (cx_out x)) as [tg|u|]; cbn [obind]; [|reflexivity|reflexivity].
  destruct record as [buf|n]; [|reflexivity].
  rewrite alone_cret. cbn [obind iov_data]. unfold protect_payload. sq. sq.
  match goal with |- context [half_encrypt P (cx_out x) ?a ?p ?o fs] =>
    destruct (half_encrypt P (cx_out x) a p o fs) as [[[[h [st n]] tail] fs1]|u|] end; cbn [obind ret]; [|reflexivity|reflexivity].
  destruct (is_ok st); cbn [negb]; reflexivity.
Qed.

Lemma handle_result_alone : forall P lib r fs x,
  alone (handle_result_c P lib r fs) x =
  obind (handle_result P lib x r fs) (fun '((x, st), fs) => Done (x, (st, fs))).
Proof.
  intros P lib [st|r] fs x; [reflexivity|]. unfold handle_result_c, handle_result. sq. cbn [obind]. sq.
  set (x1 := set_phase x (cx_phase x) (r_expecting r)).
  sq.
  assert (T : forall x fs, obind (match cx_phase x with
      | DONE => Done (x, kOk)
      | p =>
        let x := match p with
                 | NOT_RECEIVED =>
                   if r_ticket r then set_phase x RECEIVING (cx_expecting x)
                   else x
                 | _ => x
                 end in
        if r_ticket r && (kMaxNumTicketsToProcess <=? r_num r) then
          obind (send_tickets x) (fun x => Done (set_phase x DONE false, kOk))
        else Done (x, kOk)
      end) (fun '(s, a) => Done (s, (a, fs))) =
    obind ((match cx_phase x with
    | DONE => ret (x, kOk)
    | p =>
      let x := match p with
               | NOT_RECEIVED =>
                 if r_ticket r then set_phase x RECEIVING (cx_expecting x)
                 else x
               | _ => x
               end in
      if r_ticket r && (kMaxNumTicketsToProcess <=? r_num r) then
        x <- lift (send_tickets x) ;;
        ret (set_phase x DONE false, kOk)
      else ret (x, kOk)
    end) fs) (fun '((x, st), fs) => Done (x, (st, fs)))).
  { intros y gs. destruct (cx_phase y); [| |reflexivity];
      cbn [bind lift]; destruct (r_ticket r && (kMaxNumTicketsToProcess <=? r_num r)); try reflexivity;
      sq; match goal with |- context [send_tickets ?z] => destruct (send_tickets z) end; reflexivity. }
  destruct (r_key_update r).
  - sq. sq.
    destruct (half_update_key P lib (cx_in x1) fs) as [[[h st] fs1]|u|]; cbn [obind ret]; [|reflexivity|reflexivity].
    sq. cbn [obind]. destruct (is_ok st); cbn [negb]; [|reflexivity]. apply T.
  - sq. cbn [obind ret]. apply T.
Qed.

Lemma crypt_unprotect_alone : forall P lib hdr payload out fs x,
  alone (crypt_unprotect_c P lib hdr payload out fs) x =
  obind (crypt_unprotect P lib x hdr payload out fs) (fun '((x, st, out), fs) => Done (x, ((st, out), fs))).
Proof.
  intros P lib hdr payload out fs x. unfold crypt_unprotect_c, crypt_unprotect. sq. cbn [obind].
  destruct (cx_close x); [reflexivity|]. sq. rewrite overhead_alone. sq.
  destruct (record_overhead x) as [o|u|] eqn:Eo; cbn [obind]; [|reflexivity|reflexivity].
  destruct (_ <? o); [reflexivity|]. sq. rewrite overhead_alone, Eo. cbn [obind].
  destruct (_ <? _); [reflexivity|]. destruct (negb (validate_header _ _)); [reflexivity|].
  sq. sq.
  destruct (half_decrypt P (cx_in x) [hdr] payload out fs) as [[[[h [st n]] pl] fs1]|u|]; cbn [obind ret]; [|reflexivity|reflexivity].
  destruct (is_ok st); cbn [negb].
  2:{ sq. sq. destruct (zero_out pl); reflexivity. }
  destruct (scan_type _) as [[ty content]|]; [|reflexivity].
  destruct (ty =? kTls13Alert).
  { destruct content as [|a [|d c]]; sq; sq; destruct (zero_out pl); cbn [obind]; try reflexivity.
    destruct (d =? kTlsAlertCloseNotify); reflexivity. }
  destruct (ty =? kTls13Handshake).
  { sq. sq. cbn [cx_handler set_in].
    destruct (process_handshake_message (cx_handler x) content) as [[hh r]|u|]; cbn [obind]; [|reflexivity|reflexivity].
    sq. rewrite handle_result_alone. sq.
    destruct (handle_result P lib _ r fs1) as [[[x2 st2] fs2]|u|]; cbn [obind]; [|reflexivity|reflexivity].
    destruct (is_ok st2); reflexivity. }
  destruct (ty =? kTls13ApplicationData).
  { sq. cbn [cx_expecting set_in]. destruct (cx_expecting x); [reflexivity|].
    sq. cbn [cx_phase set_in]. destruct (cx_phase x); [reflexivity| |reflexivity].
    destruct (send_tickets _); reflexivity. }
  sq. sq. destruct (zero_out pl); reflexivity.
Qed.

(* ---- frame protector ---- *)
Definition join (mx : N) (m : heap) (x : crypt) : fprot :=
  {| fp_crypt := x; fp_max := mx; fp_next := hp_next m; fp_events := hp_events m |}.

Lemma heap_join : forall mx m x, heap_of (join mx m x) = m.
Proof. intros mx [n e] x. reflexivity. Qed.

Lemma number_bytes_alone : forall len fs f,
  alone (number_bytes_c len fs) (fp_crypt f) =
  obind (number_bytes_to_protect f len) (fun n => Done (fp_crypt f, (n, fs))).
Proof.
  intros. unfold number_bytes_c, number_bytes_to_protect. sq. rewrite overhead_alone.
  destruct (record_overhead (fp_crypt f)); reflexivity.
Qed.

Lemma protect_loop_alone : forall fuel P mx m c remaining first out index id fs x,
  alone (protect_loop_c fuel P m c remaining first out index id fs) x =
  obind (protect_loop fuel P (join mx m x) c remaining first out index id fs)
    (fun '((f, st, out), fs) => Done (fp_crypt f, ((heap_of f, st, out), fs))).
Proof.
  induction fuel as [|fuel IH]; intros P mx m c remaining first out index id fs x; cbn [protect_loop_c protect_loop].
  - destruct (negb (first || (0 <? remaining))); [|reflexivity].
    rewrite alone_cret. cbn. f_equal. f_equal. f_equal. destruct m; reflexivity.
  - destruct (negb (first || (0 <? remaining))).
    { rewrite alone_cret. cbn. f_equal. f_equal. f_equal. destruct m; reflexivity. }
    sq. sq. set (n := if remaining <? kTlsMaxPlaintextSize then remaining else kTlsMaxPlaintextSize).
    destruct (collect_chunk (fst c) (snd c) n) as [[chunk c1]|u|]; cbn [obind]; [|reflexivity|reflexivity].
    sq. rewrite crypt_protect_alone. sq. cbn [fp_crypt join].
    destruct (crypt_protect P x APPLICATION_DATA chunk (IoBuf (dropN index out)) fs) as [[[[x1 [st w]] tail] fs1]|u|]; cbn [obind]; [|reflexivity|reflexivity].
    destruct st; try reflexivity.
    sq. rewrite overhead_alone. sq.
    destruct (record_overhead x1) as [o|u|]; cbn [obind]; [|reflexivity|reflexivity].
    destruct (negb (w =? n + o)); [reflexivity|]. apply (IH P mx m).
Qed.

Lemma protect_into_alone : forall P mx m input id out fs x,
  alone (fp_protect_into_c P m input id out fs) x =
  obind (fp_protect_into P (join mx m x) input id out fs)
    (fun '((f, st, out), fs) => Done (fp_crypt f, ((heap_of f, st, out), fs))).
Proof.
  intros P mx m input id out fs x. unfold fp_protect_into_c, fp_protect_into. destruct out as [buf|n].
  - sq. rewrite (protect_loop_alone _ P mx). sq.
    match goal with |- context [protect_loop ?a ?b ?c ?d ?e ?f ?g ?h ?i ?j] => destruct (protect_loop a b c d e f g h i j) as [[[[f1 st] b1] fs1]|u|] end; reflexivity.
  - sq. sq. destruct (collect_chunk input 0 _) as [[chunk c1]|u|]; cbn [obind]; [|reflexivity|reflexivity].
    sq. rewrite crypt_protect_alone. sq. cbn [fp_crypt join].
    destruct (crypt_protect P x APPLICATION_DATA chunk (IoNull n) fs) as [[[[x1 [st w]] tail] fs1]|u|]; reflexivity.
Qed.

Lemma protect_alone : forall P al mx m input fs x,
  alone (fp_protect_c P al m input fs) x =
  obind (fp_protect P al (join mx m x) input fs)
    (fun '((f, st, bs), fs) => Done (fp_crypt f, ((heap_of f, st, bs), fs))).
Proof.
  intros P al mx m input fs x. unfold fp_protect_c, fp_protect. sq.
  change x with (fp_crypt (join mx m x)) at 1. rewrite number_bytes_alone. sq.
  destruct (number_bytes_to_protect (join mx m x) (total_len input)) as [size|u|]; cbn [obind]; [|reflexivity|reflexivity].
  unfold fp_alloc, hp_alloc. sq. rewrite (protect_into_alone P mx). sq. unfold join; cbn [hp_next hp_events fp_crypt fp_max fp_next fp_events].
  match goal with |- context [fp_protect_into ?a ?b ?c ?d ?e ?f] => destruct (fp_protect_into a b c d e f) as [[[[f1 st] o1] fs1]|u|] end; [|reflexivity|reflexivity].
  cbn [obind finish_protect]. destruct (is_ok st); reflexivity.
Qed.

Lemma destroy_all : forall acc f,
  fp_crypt (fold_left (fun f b => fp_destroy f (fb_id b)) acc f) = fp_crypt f /\
  heap_of (fold_left (fun f b => fp_destroy f (fb_id b)) acc f) =
  fold_left (fun m b => hp_destroy m (fb_id b)) acc (heap_of f).
Proof.
  induction acc as [|b acc IH]; intro f; cbn [fold_left]; [split; reflexivity|].
  destruct (IH (fp_destroy f (fb_id b))) as [I1 I2]. split; [rewrite I1; reflexivity|]. rewrite I2. reflexivity.
Qed.

Lemma unprotect_loop_alone : forall fuel P lib al mx m c remaining acc fs x,
  alone (unprotect_loop_c fuel P lib al m c remaining acc fs) x =
  obind (unprotect_loop fuel P lib al (join mx m x) c remaining acc fs)
    (fun '((f, st, bs), fs) => Done (fp_crypt f, ((heap_of f, st, bs), fs))).
Proof.
  induction fuel as [|fuel IH]; intros P lib al mx m c remaining acc fs x; cbn [unprotect_loop_c unprotect_loop];
    sq; rewrite overhead_alone; sq; cbn [fp_crypt join];
    (destruct (record_overhead x) as [o|u|]; cbn [obind]; [|reflexivity|reflexivity]);
    (destruct (remaining <? o); [sq; cbn; unfold heap_of; destruct m; reflexivity|]).
  - reflexivity.
  - sq. sq.
    destruct (compute_record_size c) as [[st|[hdr [vs on]]]|u|]; cbn [obind]; [destruct m; reflexivity| |reflexivity|reflexivity].
    sq. sq.
    destruct (isolate_payload vs on (header_payload_size hdr)) as [[st|[payload c1]]|u|]; cbn [obind]; [destruct m; reflexivity| |reflexivity|reflexivity].
    unfold hp_alloc, fp_alloc. sq. rewrite crypt_unprotect_alone. sq. unfold join; cbn [fp_crypt fp_next fp_events fp_max].
    destruct (crypt_unprotect P lib x (IoBuf hdr) payload (al (hp_next m) (header_payload_size hdr)) fs) as [[[[x1 [st w]] mem] fs1]|u|]; cbn [obind]; [|reflexivity|reflexivity].
    destruct st;
      [apply (IH P lib al mx {| hp_next := hp_next m + 1; hp_events := hp_events m ++ [EvAlloc (hp_next m) (header_payload_size hdr)] |})|..];
      (sq; match goal with |- context [fold_left _ acc (fp_destroy ?f ?i)] => destruct (destroy_all acc (fp_destroy f i)) as [D1 D2] end;
       rewrite D1, D2; reflexivity).
Qed.

Lemma unprotect_alone : forall P lib al mx m input fs x,
  alone (fp_unprotect_c P lib al m input fs) x =
  obind (fp_unprotect P lib al (join mx m x) input fs)
    (fun '((f, st, bs), fs) => Done (fp_crypt f, ((heap_of f, st, bs), fs))).
Proof.
  intros P lib al mx m input fs x. unfold fp_unprotect_c, fp_unprotect. sq. rewrite overhead_alone.
  sq. cbn [fp_crypt join].
  destruct (record_overhead x) as [o|u|]; cbn [obind]; [|reflexivity|reflexivity].
  destruct (total_len input <? o); [destruct m; reflexivity|]. apply unprotect_loop_alone.
Qed.
