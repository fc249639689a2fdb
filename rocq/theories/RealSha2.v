(* SHA-256, SHA-384 (FIPS 180-4) and HMAC (RFC 2104): the hash functions behind
   hkdf.cc. Not part of /repo; a concrete instance of [p_hmac]. *)
From Coq Require Import List NArith Bool.
From Verif Require Import Base.
Import ListNotations.
Local Open Scope N_scope.

(* n bytes, most / least significant first. *)
Fixpoint to_be (n : nat) (v : N) : bytes :=
  match n with
  | O => []
  | S n' => to_be n' (v / 256) ++ [v mod 256]
  end.
Fixpoint to_le (n : nat) (v : N) : bytes :=
  match n with
  | O => []
  | S n' => v mod 256 :: to_le n' (v / 256)
  end.
Definition of_be (b : bytes) : N := fold_left (fun acc x => acc * 256 + x) b 0.
Definition of_le (b : bytes) : N := of_be (rev b).

(* Consecutive pieces of k elements (the last one may be shorter). *)
Fixpoint pieces (fuel k : nat) (l : bytes) : list bytes :=
  match fuel, l with
  | S f, _ :: _ => firstn k l :: pieces f k (skipn k l)
  | _, _ => []
  end.
Definition blocks (k : nat) (l : bytes) : list bytes := pieces (length l) k l.

(* One parameter set of the SHA-2 family. *)
Record sha2_params := {
  s_bits : N;                       (* word size in bits *)
  s_mask : N;                       (* 2 ^ s_bits - 1 *)
  s_Sigma0 : N * N * N;             (* rotations *)
  s_Sigma1 : N * N * N;
  s_sigma0 : N * N * N;             (* two rotations and a shift *)
  s_sigma1 : N * N * N;
  s_k : list N;
  s_init : list N;
  s_words_out : nat
}.

Section Sha2.
Variable H : sha2_params.
Let w := s_bits H.
Definition word (x : N) : N := N.land x (s_mask H).
Definition rotr (x n : N) : N := N.lor (N.shiftr x n) (word (N.shiftl x (w - n))).
Definition rot3 (p : N * N * N) (x : N) : N :=
  let '(a, b, c) := p in N.lxor (rotr x a) (N.lxor (rotr x b) (rotr x c)).
Definition rot2 (p : N * N * N) (x : N) : N :=
  let '(a, b, c) := p in N.lxor (rotr x a) (N.lxor (rotr x b) (N.shiftr x c)).

(* The message schedule; [win] holds the last 16 words, oldest first. *)
Fixpoint schedule (n : nat) (win : list N) : list N :=
  match n with
  | O => []
  | S n' =>
    match win with
    | w0 :: rest =>
      let nw := word (rot2 (s_sigma1 H) (nth 14 win 0) + nth 9 win 0 +
                      rot2 (s_sigma0 H) (nth 1 win 0) + w0) in
      w0 :: schedule n' (rest ++ [nw])
    | [] => []
    end
  end.

Fixpoint rounds (k ws : list N) (a b c d e f g h : N) : list N :=
  match k, ws with
  | kt :: k', wt :: ws' =>
    let ch := N.lxor (N.land e f) (N.land (N.lxor e (s_mask H)) g) in
    let maj := N.lxor (N.land a b) (N.lxor (N.land a c) (N.land b c)) in
    let t1 := h + rot3 (s_Sigma1 H) e + ch + kt + wt in
    let t2 := rot3 (s_Sigma0 H) a + maj in
    rounds k' ws' (word (t1 + t2)) a b c (word (d + t1)) e f g
  | _, _ => [a; b; c; d; e; f; g; h]
  end.

Definition word_bytes : nat := N.to_nat (w / 8).

Definition compress (st : list N) (block : bytes) : list N :=
  let win := map of_be (blocks word_bytes block) in
  match st with
  | [a; b; c; d; e; f; g; h] =>
    map (fun p => word (fst p + snd p))
      (combine st (rounds (s_k H) (schedule (length (s_k H)) win) a b c d e f g h))
  | _ => st
  end.

Definition pad_message (m : bytes) : bytes :=
  let bs := N.of_nat (16 * word_bytes) in
  let lb := N.of_nat (2 * word_bytes) in
  let used := lenN m + 1 + lb in
  m ++ [128] ++ zeros ((bs - used mod bs) mod bs) ++ to_be (2 * word_bytes) (8 * lenN m).

Definition sha2 (m : bytes) : bytes :=
  let st := fold_left compress (blocks (16 * word_bytes) (pad_message m)) (s_init H) in
  flat_map (fun i => to_be word_bytes (nth i st 0)) (seq 0 (s_words_out H)).

Definition hmac (key m : bytes) : bytes :=
  let bs := N.of_nat (16 * word_bytes) in
  let key := if bs <? lenN key then sha2 key else key in
  let key := key ++ zeros (bs - lenN key) in
  sha2 (map (N.lxor 92) key ++ sha2 (map (N.lxor 54) key ++ m)).
End Sha2.

Definition sha256_params : sha2_params := {|
  s_bits := 32; s_mask := 4294967295;
  s_Sigma0 := (2, 13, 22); s_Sigma1 := (6, 11, 25);
  s_sigma0 := (7, 18, 3); s_sigma1 := (17, 19, 10);
  s_k := [1116352408; 1899447441; 3049323471; 3921009573; 961987163; 1508970993;
   2453635748; 2870763221; 3624381080; 310598401; 607225278; 1426881987;
   1925078388; 2162078206; 2614888103; 3248222580; 3835390401; 4022224774;
   264347078; 604807628; 770255983; 1249150122; 1555081692; 1996064986;
   2554220882; 2821834349; 2952996808; 3210313671; 3336571891; 3584528711;
   113926993; 338241895; 666307205; 773529912; 1294757372; 1396182291;
   1695183700; 1986661051; 2177026350; 2456956037; 2730485921; 2820302411;
   3259730800; 3345764771; 3516065817; 3600352804; 4094571909; 275423344;
   430227734; 506948616; 659060556; 883997877; 958139571; 1322822218;
   1537002063; 1747873779; 1955562222; 2024104815; 2227730452; 2361852424;
   2428436474; 2756734187; 3204031479; 3329325298];
  s_init := [1779033703; 3144134277; 1013904242; 2773480762; 1359893119; 2600822924;
   528734635; 1541459225];
  s_words_out := 8 |}.

Definition sha384_params : sha2_params := {|
  s_bits := 64; s_mask := 18446744073709551615;
  s_Sigma0 := (28, 34, 39); s_Sigma1 := (14, 18, 41);
  s_sigma0 := (1, 8, 7); s_sigma1 := (19, 61, 6);
  s_k := [4794697086780616226; 8158064640168781261; 13096744586834688815;
   16840607885511220156; 4131703408338449720; 6480981068601479193;
   10538285296894168987; 12329834152419229976; 15566598209576043074;
   1334009975649890238; 2608012711638119052; 6128411473006802146;
   8268148722764581231; 9286055187155687089; 11230858885718282805;
   13951009754708518548; 16472876342353939154; 17275323862435702243;
   1135362057144423861; 2597628984639134821; 3308224258029322869;
   5365058923640841347; 6679025012923562964; 8573033837759648693;
   10970295158949994411; 12119686244451234320; 12683024718118986047;
   13788192230050041572; 14330467153632333762; 15395433587784984357;
   489312712824947311; 1452737877330783856; 2861767655752347644;
   3322285676063803686; 5560940570517711597; 5996557281743188959;
   7280758554555802590; 8532644243296465576; 9350256976987008742;
   10552545826968843579; 11727347734174303076; 12113106623233404929;
   14000437183269869457; 14369950271660146224; 15101387698204529176;
   15463397548674623760; 17586052441742319658; 1182934255886127544;
   1847814050463011016; 2177327727835720531; 2830643537854262169;
   3796741975233480872; 4115178125766777443; 5681478168544905931;
   6601373596472566643; 7507060721942968483; 8399075790359081724;
   8693463985226723168; 9568029438360202098; 10144078919501101548;
   10430055236837252648; 11840083180663258601; 13761210420658862357;
   14299343276471374635; 14566680578165727644; 15097957966210449927;
   16922976911328602910; 17689382322260857208; 500013540394364858;
   748580250866718886; 1242879168328830382; 1977374033974150939;
   2944078676154940804; 3659926193048069267; 4368137639120453308;
   4836135668995329356; 5532061633213252278; 6448918945643986474;
   6902733635092675308; 7801388544844847127];
  s_init := [14680500436340154072; 7105036623409894663; 10473403895298186519;
   1526699215303891257; 7436329637833083697; 10282925794625328401;
   15784041429090275239; 5167115440072839076];
  s_words_out := 6 |}.
