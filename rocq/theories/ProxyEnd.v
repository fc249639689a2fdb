(* From the handshake to the exchange of data: C62; the channel factory: a
   counterexample to C63. *)
From Coq Require Import List NArith Bool Permutation Lia.
From Verif Require Import Base Aead AeadProofs Hkdf HalfConn Options HsHandler Crypter FrameProt Wire SpecWire WireProofs WireMsgs WireValid
  Util Context SpecOptions HsMsgProofs Proxy ProxyRun ProxyProofs ProxyFinal ProxyTokens SpecProxy SpecTls SpecHs SpecRecord SpecRx CrypterRun
  HalfRun SpecFrame FrameRun FrameSim FrameLink FrameTrip FrameFinal Toy ToyProofs FrameExamples ProxyRefuted.
Import ListNotations.
Local Open Scope N_scope.

Lemma protector_of : forall w a cs st s u, prims_ok (w_prims w) -> w_text w [] = true -> last (addresses cs) [] <> [] ->
  handshaken w a cs st s -> usable u st ->
  exists s' f args fs', pstep w s (PProtector []) = Done (s', RProtector (inr f)) /\
    fp_create (w_prims w) (w_lib w) args [] = Done (inr f, fs') /\
    f_in args = dir_start u (pt_in_key st) (pt_in_seq st) /\ f_out args = dir_start u (pt_out_key st) (pt_out_seq st) /\
    pt_in_seq st < two64 /\ pt_out_seq st < two64.
Proof.
  intros w a cs st s u HP HV Ha (ops & rs & s0 & b & r & res & n & buf & s1 & later & rs' & Hp & G & Hr & Hst & E & Hq & Hok & Erun) (U1 & U2 & U3 & U4).
  destruct (P39 w a cs ops rs s0 Hp b r res s1 n buf G Hr E later rs' s Hq Hok Erun) as [(args & (st' & p & M1 & M2 & M) & Hu & Hiff) _].
  rewrite Hst in M1. injection M1 as <-. cbn zeta in M. destruct M as (T & S & I1 & I2 & I3 & I4 & _ & _ & A1 & A2 & A3).
  assert (Et : ca_tls (fa_crypt args) = TLS1_3). { apply tls_from_ok in T, U1. congruence. }
  assert (Es : ca_suite (fa_crypt args) = u). { apply suite_from_ok in S, U2. congruence. }
  assert (Hseq : pt_in_seq st < two64 /\ pt_out_seq st < two64).
  { destruct G as (_ & G & _). apply parse_resp_valid in G; [|exact HV]. destruct G as (_ & _ & G & _). rewrite Hr in G. cbn in G.
    destruct G as (_ & G & _). rewrite Hst in G. destruct G as (_ & _ & G1 & G2 & _). auto. }
  destruct Hseq as [Q1 Q2].
  destruct (F32 (w_prims w) (w_lib w) args [] HP) as (x & fs' & Ef & _ & _ & Hv); [rewrite I3; exact Q1|rewrite I4; exact Q2|].
  destruct Hv as (f & ->); [|reflexivity|].
  { rewrite Hu, Es, I1, I2. auto 10. }
  destruct (Hiff [] (inr f)) as [_ K]. destruct K as (s3 & K); [eauto|].
  exists s3, f, args, fs'. split; [exact K|]. split; [exact Ef|]. unfold f_in, f_out. rewrite Es, I1, I2, I3, I4. auto.
Qed.

Lemma Q62 : forall wa wb aa ab csa csb x y sa sb u ala alb,
  prims_ok (w_prims wa) -> w_prims wb = w_prims wa -> w_text wa [] = true -> w_text wb [] = true ->
  last (addresses csa) [] <> [] -> last (addresses csb) [] <> [] ->
  handshaken wa aa csa x sa -> handshaken wb ab csb y sb -> usable u x -> usable u y -> two_ends x y -> alloc_ok ala -> alloc_ok alb ->
  exists sa' sb' f g, pstep wa sa (PProtector []) = Done (sa', RProtector (inr f)) /\
    pstep wb sb (PProtector []) = Done (sb', RProtector (inr g)) /\
    forall es, levents_ok [] [] es -> pt_out_seq x + records_sent true es <= two64 -> pt_in_seq x + records_sent false es <= two64 ->
    exists l', link_run (w_prims wa) (w_lib wa) (w_lib wb) ala alb {| l_a := f; l_b := g; l_up := []; l_down := [] |} es =
      Done (l', channel [] [] es).
Proof.
  intros wa wb aa ab csa csb x y sa sb u ala alb HP EP V1 V2 A1 A2 H1 H2 U1 U2 (M1 & M2 & M3 & M4) L1 L2.
  destruct (protector_of wa aa csa x sa u HP V1 A1 H1 U1) as (sa' & f & args & fs1 & E1 & C1 & I1 & O1 & Q1 & Q2).
  assert (HP' : prims_ok (w_prims wb)) by (rewrite EP; exact HP).
  destruct (protector_of wb ab csb y sb u HP' V2 A2 H2 U2) as (sb' & g & args' & fs2 & E2 & C2 & I2 & O2 & _).
  rewrite EP in C2. exists sa', sb', f, g. split; [exact E1|]. split; [exact E2|]. intros es Hes B1 B2.
  eapply round_trip with (aa := args) (ab := args'); try eassumption; rewrite ?I1, ?O1, ?I2, ?O2, ?M1, ?M2, ?M3, ?M4; try reflexivity; cbn; congruence.
Qed.

(* ---- C63 ---- *)
Definition ticket_world : world := {| w_prims := toy; w_lib := OpenSSL; w_text := is_utf8; w_manager := fun _ _ => None |}.
Definition ticket_records : bytes :=
  let d := f_in (frame_args done0 result0) in
  tls_record toy d ty_handshake (ticket [1]) 0 ++ tls_record toy (dir_next d) ty_application_data [5] 0.
Definition ticket_uses : list (fop * faults) := [(FUnprotect [IoBuf ticket_records], [])].
Definition ticket_check (s : proxy) (ch : bool) : bool :=
  match pstep ticket_world s (PProtector []) with
  | Done (_, RProtector (inr f)) =>
    match frun toy OpenSSL toy_al f ticket_uses with
    | Done (f', _) => match cx_sent (fp_crypt f') with [t] => Bool.eqb (ts_channel t) ch | _ => false end
    | _ => false
    end
  | _ => false
  end.
Lemma ticket_checked : forall s ch, ticket_check s ch = true ->
  exists s' f f' frs t, pstep ticket_world s (PProtector []) = Done (s', RProtector (inr f)) /\
    frun toy OpenSSL toy_al f ticket_uses = Done (f', frs) /\ cx_sent (fp_crypt f') = [t] /\ ts_channel t = ch.
Proof.
  intros s ch H. unfold ticket_check in H. destruct (pstep ticket_world s (PProtector [])) as [[s' [| | |[c|f]|]]|u|]; try discriminate.
  destruct (frun toy OpenSSL toy_al f ticket_uses) as [[f' frs]|u|] eqn:E; try discriminate.
  destruct (cx_sent (fp_crypt f')) as [|t [|]] eqn:Ec; try discriminate. apply Bool.eqb_prop in H. eauto 10.
Qed.
Lemma ticket_uses_ok : fops_ok ticket_uses.
Proof.
  constructor; [|constructor]. split; [repeat constructor|]. split; [|reflexivity].
  apply Forall_forall. intros b Hb. assert (K : forallb (fun b => b <? 256) (iov_concat [IoBuf ticket_records]) = true) by (vm_compute; reflexivity).
  rewrite forallb_forall in K. apply N.ltb_lt. apply K. exact Hb.
Qed.
Lemma first_ticket : ticket_check done0 true = true.
Proof. vm_compute. reflexivity. Qed.
Lemma second_ticket : ticket_check (move_channel done0) false = true.
Proof. vm_compute. reflexivity. Qed.

Lemma R63 : exists w a cs b r rs s s' f al uses frs f' t,
  prims_ok (w_prims w) /\ alloc_ok al /\ fops_ok uses /\ ya_channel a = true /\ good_response (w_text w) b r /\
  proxied w a cs [PToPeer (Some b); PProtector []] rs s /\
  pstep w s (PProtector []) = Done (s', RProtector (inr f)) /\ frun (w_prims w) (w_lib w) al f uses = Done (f', frs) /\
  In t (cx_sent (fp_crypt f')) /\ ts_channel t = false.
Proof.
  destruct (protector_made ticket_world done0 result0 toy_ok) as (f0 & fs1 & E1 & _); try reflexivity.
  destruct (ticket_checked _ _ second_ticket) as (s' & f & f' & frs & t & A & B & C & D).
  exists ticket_world, args0, setters0, (enc_resp good_reply), good_reply. eexists _, (move_channel done0), s', f, toy_al, ticket_uses, frs, f', t.
  split; [exact toy_ok|]. split; [exact toy_al_ok|]. split; [exact ticket_uses_ok|]. split; [reflexivity|].
  split; [exact (good_reply_good _ utf8_texts)|].
  split; [eapply (next_step _ _ _ [_] [_]); [exact (handshake ticket_world utf8_texts)|exact I|exact E1]|].
  split; [exact A|]. split; [exact B|]. split; [rewrite C; now left|exact D].
Qed.

(* ---- a case of C62 ---- *)
Definition peer_state : p_state :=
  {| pt_tls := 1; pt_suite := 0; pt_in_seq := 5; pt_out_seq := 3; pt_in_key := repeat 22 32; pt_out_key := repeat 11 32;
     pt_in_nonce := []; pt_out_nonce := []; pt_conn := 78; pt_resumed := true |}.
Definition peer_reply : p_resp := reply 0 None [] (Some (result_of (Some peer_state) (Some (host_of [98])))).
Lemma peer_reply_good : good_response is_utf8 (enc_resp peer_reply) peer_reply.
Proof.
  split; [vm_compute; discriminate|]. split; [|eexists; split; reflexivity]. vm_compute. reflexivity.
Qed.
Definition args1 : proxy_args := args_for false [] setters0.
Lemma case62 : exists sa sb, handshaken ticket_world args0 setters0 (state_of 1 0) sa /\ handshaken ticket_world args1 setters0 peer_state sb /\
  usable AES_128_GCM_SHA256 (state_of 1 0) /\ usable AES_128_GCM_SHA256 peer_state /\ two_ends (state_of 1 0) peer_state.
Proof.
  exists done0. eexists. split; [|split].
  - eexists [], [], (proxy0 args0 setters0), (enc_resp good_reply), good_reply, _, _, _, _, [], [].
    split; [split; [reflexivity|split; [constructor|eexists; split; [apply created|reflexivity]]]|].
    split; [exact (good_reply_good _ utf8_texts)|]. split; [reflexivity|]. split; [reflexivity|].
    split; [cbn [pstep]; rewrite (peer_is _ _ _ _ (good_reply_good _ utf8_texts)); reflexivity|]. repeat constructor.
  - eexists [], [], (proxy0 args1 setters0), (enc_resp peer_reply), peer_reply, _, _, _, _, [], [].
    split; [split; [reflexivity|split; [constructor|eexists; split; [apply created|reflexivity]]]|].
    split; [exact peer_reply_good|]. split; [reflexivity|]. split; [reflexivity|].
    split; [cbn [pstep]; rewrite (peer_is _ _ _ _ peer_reply_good); reflexivity|]. repeat constructor.
  - repeat split; constructor.
Qed.
