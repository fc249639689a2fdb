(* A case for PropStream.v. The tag shows the nonce, so that authenticity can
   be decided for all sequence numbers. *)
From Coq Require Import List NArith ZArith Bool Lia ZifyBool ZifyNat ZifyN.
From Verif Require Import Base BaseProofs Aead SpecAead Hkdf HalfConn SpecTls Options HsHandler SpecHs Crypter
  SpecRecord SpecRx CrypterRun FrameProt SpecFrame FrameRun HalfProofs CrypterLemmas CrypterProofs FrameSim FrameFinal Toy ToyProofs FrameExamples
  FrameRef FrameRefProofs SpecStream StreamProofs.
Import ListNotations.
Local Open Scope N_scope.

Definition marked : prims := {|
  p_hmac := p_hmac toy; p_ks := p_ks toy;
  p_mac := fun a k n d c => takeN 12 (map (fun b => b mod 256) n ++ zeros 12) ++ be_bytes 4 (chk (chk (chk 5 k) d) c) |}.
Lemma marked_ok : prims_ok marked.
Proof.
  destruct toy_ok as [A B C D E]. constructor; cbn [marked p_hmac p_ks p_mac]; intros; auto.
  - rewrite lenN_app, lenN_takeN, lenN_app, lenN_zeros. unfold lenN at 2. rewrite be_bytes_length. unfold kAeadTagSize. lia.
  - apply Forall_app. split; [|apply be_bytes_ok]. 
    assert (H : bytes_ok (map (fun b => b mod 256) n ++ zeros 12)).
    { apply Forall_app. split; [|apply bytes_ok_zeros].
      induction n as [|x n IH]; cbn [map]; constructor; [|exact IH]. apply N.mod_lt. discriminate. }
    rewrite <- (takeN_dropN _ 12) in H. apply Forall_app in H. exact (proj1 H).
Qed.

Lemma map_mod : forall n : bytes, bytes_ok n -> map (fun b => b mod 256) n = n.
Proof. induction 1 as [|x n H _ IH]; [reflexivity|]. cbn [map]. rewrite IH, N.mod_small by exact H. reflexivity. Qed.

(* The payloads of all records inside the data. *)
Definition head_at (data : bytes) : list bytes :=
  match data with
  | 23 :: 3 :: 3 :: h :: l :: rest => if h * 256 + l <=? lenN rest then [takeN (h * 256 + l) rest] else []
  | _ => []
  end.
Fixpoint heads (data : bytes) : list bytes :=
  head_at data ++ match data with [] => [] | _ :: t => heads t end.
Lemma heads_in : forall p post, lenN p < 65536 -> forall pre data, data = pre ++ framed p ++ post -> In p (heads data).
Proof.
  intros p post Hp. induction pre as [|x pre IH]; intros data ->.
  - cbn [app]. remember (framed p ++ post) as w eqn:Ew. destruct w as [|y w]; [discriminate|]. cbn [heads].
    apply in_or_app. left. rewrite Ew. unfold framed, tls_header.
    change (be_bytes 2 (lenN p)) with ([(lenN p / 256) mod 256] ++ [lenN p mod 256]).
    cbn [app head_at].
    assert (E : (lenN p / 256) mod 256 * 256 + lenN p mod 256 = lenN p).
    { assert (lenN p / 256 < 256) by (apply N.div_lt_upper_bound; lia).
      rewrite (N.mod_small (lenN p / 256)) by assumption. rewrite (N.div_mod' (lenN p) 256) at 3. lia. }
    rewrite E. destruct (lenN p <=? lenN (p ++ post)) eqn:Eq; [|rewrite lenN_app in Eq; lia].
    left. apply takeN_app_exact.
  - cbn [app heads]. apply in_or_app. right. apply IH. reflexivity.
Qed.

Lemma marked_seq : forall d aad i j m m', lenN (traffic_iv marked (d_suite d) (d_secret d)) = 12 ->
  bytes_ok (traffic_iv marked (d_suite d) (d_secret d)) ->
  dir_usable (dir_adv d i) -> dir_usable (dir_adv d j) ->
  dir_seal marked (dir_adv d i) aad m = dir_seal marked (dir_adv d j) aad m' -> i = j.
Proof.
  intros d aad i j m m' L B [_ Ui] [_ Uj] E. cbn [dir_adv d_seq] in Ui, Uj.
  unfold dir_seal, seal in E. cbn [dir_adv d_suite d_secret d_seq] in E. cbv zeta in E.
  assert (T : forall (x y t u : bytes), x ++ t = y ++ u -> lenN t = lenN u -> t = u).
  { intros x y t u H Lt. pose proof (f_equal lenN H) as K. rewrite !lenN_app in K. apply app_split in H; [tauto|lia]. }
  pose proof (mac_len marked marked_ok) as ML.
  apply T in E; [|rewrite !ML; reflexivity]. cbn [marked p_mac] in E.
  set (iv := traffic_iv marked (d_suite d) (d_secret d)) in *.
  assert (Q : forall s, takeN 12 (map (fun b => b mod 256) (record_nonce iv s) ++ zeros 12) = record_nonce iv s).
  { intro s. rewrite map_mod by (unfold record_nonce; apply bytes_ok_xor; [exact B|apply be_bytes_ok]).
    rewrite <- (record_nonce_len iv s L) at 1. apply takeN_app_exact. }
  rewrite !Q in E. apply app_split in E; [|rewrite !record_nonce_len by exact L; reflexivity]. destruct E as [E _].
  apply record_nonce_inj in E; [lia|exact L|exact Ui|exact Uj].
Qed.

Lemma marked_no_forgery : forall d bs data, lenN (traffic_iv marked (d_suite d) (d_secret d)) = 12 ->
  bytes_ok (traffic_iv marked (d_suite d) (d_secret d)) ->
  Forall (fun p => exists j b, nth_error bs (N.to_nat j) = Some b /\ dir_usable (dir_adv d j) /\
    framed p = tls_record marked (dir_adv d j) ty_application_data b 0) (heads data) ->
  no_forgery marked d bs data.
Proof.
  intros d bs data L B H i p pre post msg E Lp U Ep.
  pose proof (heads_in p post Lp pre data E) as Hi. rewrite Forall_forall in H.
  destruct (H p Hi) as (j & b & Eb & Uj & Er).
  assert (i = j) as ->; [|exists b; auto].
  assert (Er' := Er). unfold framed, tls_record, tls_ciphertext in Er'.
  apply app_split in Er'; [|rewrite !lenN_tls_header; reflexivity]. destruct Er' as [Eh Eq]. rewrite <- Eh in Eq.
  exact (marked_seq d _ i j _ _ L B U Uj (eq_trans (eq_sym Ep) Eq)).
Qed.

(* One side sends three records and reads one. Of what it sent the other side
   is given the first record and a piece of the second, and then the second. *)
Definition s_din : dir := f_in (fargs S0).
Definition s_rec (i : N) (b : bytes) : bytes := tls_record marked (dir_adv s_din i) ty_application_data b 0.
Definition s_back : bytes := tls_record marked (f_out (fargs S0)) ty_application_data [9] 0.
Definition s_blocks : list bytes := [[1; 2; 3]; [4]; [5]].
Definition s_opsa : list (fop * faults) :=
  [(FProtect [IoBuf [1; 2]; IoBuf [3]], []); (FProtectInto [IoBuf [4]] 0 (zeros 25), []);
   (FUnprotect [IoBuf s_back], []); (FProtect [IoBuf [5]], [])].
Definition s_opsb : list (fop * faults) :=
  [(FUnprotect [IoBuf (s_rec 0 [1; 2; 3] ++ takeN 9 (s_rec 1 [4]))], []);
   (FProtect [IoBuf [9]], []); (FUnprotectInto [IoBuf (s_rec 1 [4])] (zeros 30), [])].

Ltac lookup i b := exists i, b; split; [reflexivity|]; split; [split; vm_compute; reflexivity|vm_compute; reflexivity].
Ltac genuine := apply marked_no_forgery; [vm_compute; reflexivity|vm_compute; repeat constructor|];
  match goal with |- Forall _ ?h => let v := eval vm_compute in h in replace h with v by (vm_compute; reflexivity) end.

Lemma s_given_b : never_forged marked s_din s_blocks s_opsb.
Proof.
  unfold never_forged, s_opsb. constructor; [|constructor; [|constructor; [|constructor]]]; cbn [fst given].
  - genuine. constructor; [lookup 0 [1; 2; 3]|constructor].
  - genuine. constructor.
  - genuine. constructor; [lookup 1 [4]|constructor].
Qed.
Lemma s_given_a : never_forged marked (f_in (fargs_peer S0)) [[9]] s_opsa.
Proof.
  unfold never_forged, s_opsa. constructor; [|constructor; [|constructor; [|constructor; [|constructor]]]]; cbn [fst given].
  - genuine. constructor.
  - genuine. constructor.
  - genuine. constructor; [lookup 0 [9]|constructor].
  - genuine. constructor.
Qed.

Definition start_run (a : fp_args) (ops : list (fop * faults)) : outcome (fprot * list fres) :=
  match fp_create marked OpenSSL a [] with
  | Done (inr f, _) => frun marked OpenSSL toy_al f ops
  | _ => NoFuel
  end.
Lemma start_protector : forall a ops f rs, ca_in_seq (fa_crypt a) < two64 -> ca_out_seq (fa_crypt a) < two64 -> fops_ok ops ->
  start_run a ops = Done (f, rs) -> protector marked OpenSSL toy_al a ops rs f.
Proof.
  intros a ops f rs Hi Ho Hops E. unfold start_run in E.
  destruct (fp_create marked OpenSSL a []) as [[[c|f0] fs']|u|] eqn:Ec; try discriminate.
  split; [exact marked_ok|]. split; [exact toy_al_ok|]. split; [exact Hi|]. split; [exact Ho|]. split; [exact Hops|].
  exists f0, [], fs'. split; [exact Ec|exact E].
Qed.

Definition answers_run (a : fp_args) (ops : list (fop * faults)) : option (list answer) :=
  match start_run a ops with Done (_, rs) => Some (map answer_of rs) | _ => None end.
Lemma answers_protector : forall a ops as_, ca_in_seq (fa_crypt a) < two64 -> ca_out_seq (fa_crypt a) < two64 -> fops_ok ops ->
  answers_run a ops = Some as_ -> exists f rs, protector marked OpenSSL toy_al a ops rs f /\ map answer_of rs = as_.
Proof.
  intros a ops as_ Hi Ho Hops E. unfold answers_run in E. destruct (start_run a ops) as [[f rs]|u|] eqn:Es; try discriminate.
  injection E as E. exists f, rs. split; [exact (start_protector _ _ _ _ Hi Ho Hops Es)|exact E].
Qed.

Ltac fine := unfold fops_ok; repeat (apply Forall_cons); try apply Forall_nil; cbn [fst fop_ok];
  first [vm_compute; reflexivity
        |split; [vm_compute; repeat constructor; discriminate|split; [vm_compute; repeat constructor|vm_compute; reflexivity]]].

Lemma s_case : exists rsa f rsb g,
  protector marked OpenSSL toy_al (fargs_peer S0) s_opsa rsa f /\
  protector marked OpenSSL toy_al (fargs S0) s_opsb rsb g /\
  f_out (fargs_peer S0) = f_in (fargs S0) /\ f_out (fargs S0) = f_in (fargs_peer S0) /\
  sent s_opsa s_blocks /\ sent s_opsb [[9]] /\
  never_forged marked (f_in (fargs S0)) s_blocks s_opsb /\
  never_forged marked (f_in (fargs_peer S0)) [[9]] s_opsa /\
  everywhere write_ok s_opsa (map answer_of rsa) /\ everywhere read_ok s_opsb (map answer_of rsb) /\
  delivered s_opsb (map answer_of rsb) = [[1; 2; 3]; [4]].
Proof.
  destruct (answers_run (fargs_peer S0) s_opsa) as [aa|] eqn:Ea; [|vm_compute in Ea; discriminate].
  destruct (answers_run (fargs S0) s_opsb) as [ab|] eqn:Eb; [|vm_compute in Eb; discriminate].
  destruct (answers_protector (fargs_peer S0) s_opsa aa eq_refl eq_refl ltac:(fine) Ea) as (f & rsa & Pa & Ra).
  destruct (answers_protector (fargs S0) s_opsb ab eq_refl eq_refl ltac:(fine) Eb) as (g & rsb & Pb & Rb).
  vm_compute in Ea. injection Ea as Ea. vm_compute in Eb. injection Eb as Eb.
  exists rsa, f, rsb, g. rewrite Ra, Rb, <- Ea, <- Eb.
  assert (One : forall b, lenN b = 1 \/ lenN b = 3 -> blocks_of b [b]).
  { intros b Hb. split; [apply app_nil_r|]. exists [], b. split; [reflexivity|]. split; [constructor|]. split; [lia|reflexivity]. }
  split; [exact Pa|]. split; [exact Pb|]. split; [reflexivity|]. split; [reflexivity|].
  split. { exists [[1; 2; 3]], [[4]; [5]]. split; [reflexivity|]. split; [apply (One [1; 2; 3]); right; reflexivity|].
           exists [[4]], [[5]]. split; [reflexivity|]. split; [apply (One [4]); left; reflexivity|].
           exists [], [[5]]. split; [reflexivity|]. split; [reflexivity|].
           exists [[5]], []. split; [reflexivity|]. split; [apply (One [5]); left; reflexivity|reflexivity]. }
  split. { exists [], [[9]]. split; [reflexivity|]. split; [reflexivity|].
           exists [[9]], []. split; [reflexivity|]. split; [apply (One [9]); left; reflexivity|].
           exists [], []. repeat split. }
  split; [exact s_given_b|]. split; [exact s_given_a|]. split; [repeat split|]. split; [repeat split|reflexivity].
Qed.

(* The second record twice. *)
Definition s_twice : list (fop * faults) :=
  [(FUnprotect [IoBuf (s_rec 1 [4])], []); (FUnprotect [IoBuf (s_rec 1 [4])], [])].
Lemma s_lost : exists rs f, protector marked OpenSSL toy_al (fargs S0) s_twice rs f /\
  never_forged marked (f_in (fargs S0)) s_blocks s_twice /\
  (forall i msg, i < 1 -> s_rec 1 [4] <> tls_ciphertext marked (dir_adv (f_in (fargs S0)) i) msg) /\
  delivered s_twice (map answer_of rs) = [[4]].
Proof.
  destruct (answers_run (fargs S0) s_twice) as [aa|] eqn:Ea; [|vm_compute in Ea; discriminate].
  destruct (answers_protector (fargs S0) s_twice aa eq_refl eq_refl ltac:(fine) Ea) as (f & rs & Pa & Ra).
  vm_compute in Ea. injection Ea as Ea.
  exists rs, f. rewrite Ra, <- Ea. split; [exact Pa|]. split; [|split; [|reflexivity]].
  - unfold never_forged, s_twice. constructor; [|constructor; [|constructor]]; cbn [fst given];
      (genuine; constructor; [lookup 1 [4]|constructor]).
  - intros i msg Hi E. assert (i = 0) as -> by lia. unfold s_rec, tls_record, tls_ciphertext in E.
    apply app_split in E; [|rewrite !lenN_tls_header; reflexivity]. destruct E as [Eh E]. rewrite <- Eh in E.
    apply marked_seq in E; [discriminate|vm_compute; reflexivity|vm_compute; repeat constructor| |]; split; reflexivity.
Qed.

(* A record and 22 zero bytes, then the next record. *)
Definition s_junk : list (fop * faults) :=
  [(FUnprotect [IoBuf (tls_record marked (f_in (fargs S0)) ty_application_data [1; 2; 3] 0 ++ zeros 22)], []);
   (FUnprotect [IoBuf (tls_record marked (dir_next (f_in (fargs S0))) ty_application_data [4] 0)], [])].
Lemma s_junk_case : ~ starts_with_record (zeros 22) /\ exists rs f,
  protector marked OpenSSL toy_al (fargs S0) s_junk rs f /\
  never_forged marked (f_in (fargs S0)) s_blocks s_junk /\
  delivered s_junk (map answer_of rs) = [[4]].
Proof.
  split. { intros (hdr & p & rest & E & -> & _). discriminate. }
  destruct (answers_run (fargs S0) s_junk) as [aa|] eqn:Ea; [|vm_compute in Ea; discriminate].
  destruct (answers_protector (fargs S0) s_junk aa eq_refl eq_refl ltac:(fine) Ea) as (f & rs & Pa & Ra).
  vm_compute in Ea. injection Ea as Ea.
  exists rs, f. rewrite Ra, <- Ea. split; [exact Pa|]. split; [|reflexivity].
  unfold never_forged, s_junk. constructor; [|constructor; [|constructor]]; cbn [fst given].
  - genuine. constructor; [lookup 0 [1; 2; 3]|constructor].
  - genuine. constructor; [lookup 1 [4]|constructor].
Qed.

Lemma F66refuted : exists P lib al a bs ops rs f, protector P lib al a ops rs f /\ never_forged P (f_in a) bs ops /\
  ~ exists later, bs = delivered ops (map answer_of rs) ++ later.
Proof.
  destruct s_lost as (rs & f & Hp & G & _ & E).
  exists marked, OpenSSL, toy_al, (fargs S0), s_blocks, s_twice, rs, f. split; [exact Hp|]. split; [exact G|].
  rewrite E. intros (later & K). discriminate.
Qed.
