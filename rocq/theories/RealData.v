(* Test vectors of the repository, copied from its test sources. *)
From Coq Require Import String Ascii List NArith Bool.
From Verif Require Import Base Aead Hkdf.
Import ListNotations.
Local Open Scope string_scope.
Local Open Scope N_scope.

(* Bytes written in hexadecimal. *)
Definition hex_digit (c : ascii) : N :=
  let n := N_of_ascii c in if n <? 58 then n - 48 else n - 87.
Fixpoint hx (s : string) : bytes :=
  match s with
  | String a (String b s') => (16 * hex_digit a + hex_digit b) :: hx s'
  | _ => []
  end.

(* s2a_test_data.h 49, 53, 59 *)
Definition v_advanced_secret (s : suite) : bytes :=
  match s with
  | AES_128_GCM_SHA256 => hx "f38b9455ea5871235a69fc37610c6ca1215779e66b45a047d7390111e00081c4"
  | AES_256_GCM_SHA384 => hx "016c835db664beb5526a9bb3d9a4fba63e67255dcfa460a114d9f1ef9a9a1f685a518739f557d0e66fdb89bdafa26257"
  | CHACHA20_POLY1305_SHA256 => hx "f38b9455ea5871235a69fc37610c6ca1215779e66b45a047d7390111e00081c4"
  end.

(* s2a_test_data.h 67, 71, 76 *)
Definition v_key (s : suite) : bytes :=
  match s with
  | AES_128_GCM_SHA256 => hx "c3ae7509cfced2b803a6186956cda79f"
  | AES_256_GCM_SHA384 => hx "dac731ae4866677ed2f65c490e18817be5cbbbd03f597ad59041c117b731109a"
  | CHACHA20_POLY1305_SHA256 => hx "130e2000508ace00ef265e172d09892e467256cb90dad9de99533cf548be6a8b"
  end.

(* s2a_test_data.h 81, 84, 87 *)
Definition v_nonce (s : suite) : bytes :=
  match s with
  | AES_128_GCM_SHA256 => hx "b5803d82ad8854d2e598187f"
  | AES_256_GCM_SHA384 => hx "4db152d27d180b1ee48fa89d"
  | CHACHA20_POLY1305_SHA256 => hx "b5803d82ad8854d2e598187f"
  end.

(* s2a_test_data.h 93, 98, 103 *)
Definition v_record_one (s : suite) : bytes :=
  match s with
  | AES_128_GCM_SHA256 => hx "1703030017f2e4e411ac6760e4e3f074a36574c45ee4c1906103db0d"
  | AES_256_GCM_SHA384 => hx "170303001724efee5af1a62170ad5a95f899d038b965386a1a7daed9"
  | CHACHA20_POLY1305_SHA256 => hx "1703030017c947ffa470304370338bb07ce468e6b8a0944a338ba402"
  end.

(* s2a_test_data.h 111, 116, 121 *)
Definition v_record_two (s : suite) : bytes :=
  match s with
  | AES_128_GCM_SHA256 => hx "170303001ad7853afd6d7ceaabab950a0b6707905d2b908894871c7c62021f"
  | AES_256_GCM_SHA384 => hx "170303001a832a5fd271b6442e74bc02111a8e8b52a74b14dd3eca8598b293"
  | CHACHA20_POLY1305_SHA256 => hx "170303001a0cedeb922170c110c172262542c67916b78fa0d1c1261709cd00"
  end.

(* s2a_test_data.h 129, 134, 139 *)
Definition v_record_three (s : suite) : bytes :=
  match s with
  | AES_128_GCM_SHA256 => hx "1703030015af778b0ed66efee713fbeda2357b832f759500eecd"
  | AES_256_GCM_SHA384 => hx "170303001596cb84cc5dbd27a513c6d223cc0f4a5840e17e56d8"
  | CHACHA20_POLY1305_SHA256 => hx "1703030015924a5343cf1dc695094941aba16c6c24305cc8408a"
  end.

(* s2a_test_data.h 169, 173, 177 *)
Definition v_close_notify (s : suite) : bytes :=
  match s with
  | AES_128_GCM_SHA256 => hx "1703030013c2d6c245fb80969de1dd9d14499261b67735b0"
  | AES_256_GCM_SHA384 => hx "170303001314ddc8f3b3856660bb5ac81533c157582f8b4c"
  | CHACHA20_POLY1305_SHA256 => hx "1703030013f975d9cb2f116d85d4e3859f5288a9b013d778"
  end.

(* s2a_test_data.h 185, 189, 193 *)
Definition v_alert_other (s : suite) : bytes :=
  match s with
  | AES_128_GCM_SHA256 => hx "1703030013c2fac23f995cbe79a8d1e4c8f0353afefeaac9"
  | AES_256_GCM_SHA384 => hx "170303001314f1c80add85193c9598219ae9dc26f2479ccf"
  | CHACHA20_POLY1305_SHA256 => hx "1703030013f959d96fed92bdc7e85e04e86c19eaf154b052"
  end.

(* s2a_test_data.h 201, 205, 209 *)
Definition v_alert_small (s : suite) : bytes :=
  match s with
  | AES_128_GCM_SHA256 => hx "1703030012c2c351fc48d9ac84fa165adcc9a26ffbc3c7"
  | AES_256_GCM_SHA384 => hx "170303001214c8476102a460b5cf9e9ba59e1726215ca9"
  | CHACHA20_POLY1305_SHA256 => hx "1703030012f9606a83ac17b165a51f3fe764da8560c706"
  end.

(* s2a_test_data.h 216, 220, 224 *)
Definition v_empty_record (s : suite) : bytes :=
  match s with
  | AES_128_GCM_SHA256 => hx "1703030011d47cb2ec040f26cc8989330339c669dd4e"
  | AES_256_GCM_SHA384 => hx "170303001102a04134d38c1118f36b01d177c5d2dcf7"
  | CHACHA20_POLY1305_SHA256 => hx "1703030011ef8f7a428ddc84ee5968cd6306bf1d2d1b"
  end.

(* s2a_test_data.h 246, 251, 256 *)
Definition v_padded_zeros (s : suite) : bytes :=
  match s with
  | AES_128_GCM_SHA256 => hx "1703030021f2e4e411ac6760e84726e4886d7432e39b34f0fccfc1f4558303c68a19535c0ff5"
  | AES_256_GCM_SHA384 => hx "170303002124efee5af1a621e8a4d1f269930e7835cfdd05e2d0bec5b01a67decfa6372c2af7"
  | CHACHA20_POLY1305_SHA256 => hx "1703030021c947ffa4703043f063e7b6a0519fbd0956cf3a7c9730c13597eec17ec7e700f140"
  end.

(* s2a_test_data.h 297, 302, 307 *)
Definition v_alert_padded (s : suite) : bytes :=
  match s with
  | AES_128_GCM_SHA256 => hx "170303001dc2d6c225995177e84726e4886d5ea79383e5d529cd8339fbbfcafe2418"
  | AES_256_GCM_SHA384 => hx "170303001d14ddc86ec49036e8a4d1f269933545f03b0fe9ffd8b02acd1e41f7139e"
  | CHACHA20_POLY1305_SHA256 => hx "170303001df975d990450654f063e7b6a0514c2714c9827e796071389802f451585a"
  end.

(* s2a_test_data.h 315, 320, 325 *)
Definition v_key_update_padded (s : suite) : bytes :=
  match s with
  | AES_128_GCM_SHA256 => hx "1703030020dbd6d724994777e84726e4886d7432e311a73b42d0073f28ea60e30e8eb498fd"
  | AES_256_GCM_SHA384 => hx "17030300200ddddd6fc48636e8a4d1f269930e7835adc07e732ba7fd617ff9a65a51c36b6d"
  | CHACHA20_POLY1305_SHA256 => hx "1703030020e075cc91451054f063e7b6a0519fbd098e83bda4b515bea5196cccc008556ad0"
  end.

(* s2a_test_data.h 331, 336, 341 *)
Definition v_advanced_record (s : suite) : bytes :=
  match s with
  | AES_128_GCM_SHA256 => hx "1703030017dd99ebef48292cd4c372a000740372d2ae9aad31cfd274"
  | AES_256_GCM_SHA384 => hx "17030300179cd5972e76baf56af644c92235460301c0a013ad35be00"
  | CHACHA20_POLY1305_SHA256 => hx "1703030017c4e48ccaf036bd9bc146bbc6192404f9a2d2da5d1afe78"
  end.

(* s2a_half_connection_test.cc 90-124 *)
Definition v_half_encrypt (s : suite) : bytes :=
  match s with
  | AES_128_GCM_SHA256 => hx "f2e4e411ac674e01385e7ae9db54c97a9ae3d1842e51"
  | AES_256_GCM_SHA384 => hx "24efee5af1a665e6bb188e79544a7e974c707d690c5f"
  | CHACHA20_POLY1305_SHA256 => hx "c947ffa470308b19d9a086b05ccb75d8c94abb704aae"
  end.

(* s2a_half_connection_test.cc 126-175 *)
Definition v_half_update (s : suite) : bytes :=
  match s with
  | AES_128_GCM_SHA256 => hx "dd99ebef48294872e5fb83a6b965d49c67dba41dcbdc"
  | AES_256_GCM_SHA384 => hx "9cd5972e76ba8626a69d680cf584003045126c618cf8"
  | CHACHA20_POLY1305_SHA256 => hx "c4e48ccaf036b06034b81fbf4434c7827c2b4dc27963"
  end.

(* aes_gcm_crypter_test.cc, the vectors at lines
   359, 410, 458, 511, 2807, 2976 (of 49 usable):
   plaintext, associated data, key, nonce, ciphertext and tag, whether the tag is
   invalid. *)
Definition v_aes128 : list (bytes * bytes * bytes * bytes * bytes * bool) := [
  (hx "001d0c231287c1182784554ca3a21908", hx "",
   hx "5b9604fe14eadba931b0ccf34843dab9", hx "028318abc1824029138141a2",
   hx "26073cc1d851beff176384dc9896d5ff0a3ea7a5487cb5f7d70fb6c58d038554", false);
  (hx "35", hx "",
   hx "384ea416ac3c2f51a76e7d8226346d4e", hx "b30c084727ad1c592ac21d12",
   hx "547c1e4ae88bb27e5638343cb9fd3f6337", false);
  (hx "fee62fde973fe025ad6b322dcdf3c63fc7", hx "",
   hx "c15ed227dd2e237ecd087eaaaad19ea4", hx "965ff6643116ac1443a2dec7",
   hx "0de51fe4f7f2d1f0f917569f5c6d1b009c6cd8521422c0177e83ef1b7a845d97db", false);
  (hx "f762776bf83163b323ca63a6b3adeac1e1357262", hx "4020855c66ac4595058395f367201c4c",
   hx "38449890234eb8afab0bbf82e2385454", hx "33e90658416e7c1a7c005f11",
   hx "a6f2ef3c7ef74a126dd2d5f6673964e27d5b34b6b8bbdc4f5014bc752c8b4e9b87f650a3", false);
  (hx "202122232425262728292a2b2c2d2e2f", hx "",
   hx "000102030405060708090a0b0c0d0e0f", hx "505152535455565758595a5b",
   hx "eb156d081ed6b6b55f4612f021d87b39d9847dbc326a06e988c77ad3863e6083", true);
  (hx "202122232425262728292a2b2c2d2e2f", hx "",
   hx "000102030405060708090a0b0c0d0e0f", hx "505152535455565758595a5b",
   hx "eb156d081ed6b6b55f4612f021d87b39d8847dbc326a06e988c77ad3843e6083", true)].

(* aes_gcm_crypter_test.cc, the vectors at lines
   1086, 1123, 1161, 1204, 3158, 3340 (of 48 usable):
   plaintext, associated data, key, nonce, ciphertext and tag, whether the tag is
   invalid. *)
Definition v_aes256 : list (bytes * bytes * bytes * bytes * bytes * bool) := [
  (hx "00010203040506070809", hx "00000000ffffffff",
   hx "92ace3e348cd821092cd921aa3546374299ab46209691bc28b8752d17f123c20", hx "00112233445566778899aabb",
   hx "e27abdd2d2a53d2f136b9a4a2579529301bcfb71c78d4060f52c", false);
  (hx "2a", hx "",
   hx "cc56b680552eb75008f5484b4cb803fa5063ebd6eab91f6ab6aef4916a766273", hx "99e23ec48985bccdeeab60f1",
   hx "06633c1e9703ef744ffffb40edf9d14355", false);
  (hx "549b365af913f3b081131ccb6b825588", hx "",
   hx "59d4eafb4de0cfc7d3db99a8f54b15d7b39f0acc8da69763b019c1699f87674a", hx "2fcb1b38a99e71b84740ad9b",
   hx "f58c16690122d75356907fd96b570fca28752c20153092818faba2a334640d6e", false);
  (hx "fcc515b294408c8645c9183e3f4ecee5127846d1", hx "c0",
   hx "b279f57e19c8f53f2f963f5f2519fdb7c1779be2ca2b3ae8e1128b7d6c627fc4", hx "98bc2c7438d5cd7665d76f6e",
   hx "eb5500e3825952866d911253f8de860c00831c81ecb660e1fb0541ec41e8d68a64141b3a", false);
  (hx "202122232425262728292a2b2c2d2e2f", hx "",
   hx "000102030405060708090a0b0c0d0e0f101112131415161718191a1b1c1d1e1f", hx "505152535455565758595a5b",
   hx "b2061457c0759fc1749f174ee1ccadfa9de8fef6d8ab1bf1bf887232eab590dd", true);
  (hx "202122232425262728292a2b2c2d2e2f", hx "",
   hx "000102030405060708090a0b0c0d0e0f101112131415161718191a1b1c1d1e1f", hx "505152535455565758595a5b",
   hx "b2061457c0759fc1749f174ee1ccadfa9ce8fef6d8ab1bf1bf887232e8b590dd", true)].

(* chacha_poly_crypter_test.cc, the vectors at lines
   615, 723, 845, 1120, 1728, 2008 (of 148 usable):
   plaintext, associated data, key, nonce, ciphertext and tag, whether the tag is
   invalid. *)
Definition v_chacha : list (bytes * bytes * bytes * bytes * bytes * bool) := [
  (hx "", hx "",
   hx "80ba3192c803ce965ea371d5ff073cf0f43b6a2ab576b208426e11409c09b9b0", hx "4da5bf8dfd5852c1ea12379d",
   hx "76acb342cf3166a5b63c0c0ea1383c8d", false);
  (hx "a4c9c2801b71f7df", hx "66c0ae70076cb14d",
   hx "1131c1418577a054de7a4ac551950f1a053f9ae46e5b75fe4abd5608d7cddadd", hx "b4ea666ee119563366484a78",
   hx "b9b910433af052b04530f51aeee024e0a445a6328fa67a18", false);
  (hx "10f1ecf9c60584665d9ae5efe279e7f7377eea6916d2b111", hx "",
   hx "0212a8de5007ed87b33f1a7090b6114f9e08cefd9607f2c276bdcfdbc5ce9cd7", hx "e6b1adf2fd58a8762c65f31b",
   hx "42f26c56cb4be21d9d8d0c80fc99dde00d75f38074bfe76454aa7e13d48fff7d7557039457040a3a", false);
  (hx "623b7850c321e2cf0c6fbcc8dfd1aff2", hx "89cce9fb47441d07e0245a66fe8b778b",
   hx "cb5575f5c7c45c91cf320b139fb594237560d0a3e6f865a67d4f633f2c08f016", hx "1a6518f02ede1da6809266d9",
   hx "c84c9bb7c61c1bcb17772a1c500c5095dbadf7a5138ca03459a2cd65831e092f", false);
  (hx "", hx "616164",
   hx "00112233445566778899aabbccddeeff00112233445566778899aabbccddeeff", hx "000102030405060708090a0b",
   hx "a2e3fdf9fba6861b5ad2607f40b7f447", true);
  (hx "00000000000000000000000000000000", hx "616164",
   hx "00112233445566778899aabbccddeeff00112233445566778899aabbccddeeff", hx "000102030405060708090a0b",
   hx "2cf8ae525fc86025268a4e1d88bead1926da374f17b7f1b23844a5490bfc4001", true)].

(* hkdf_test.cc 84-139 (RFC 5869, appendix A): info, prk, output. *)
Definition v_hkdf : list (bytes * bytes * bytes) := [
  (hx "f0f1f2f3f4f5f6f7f8f9",
   hx "077709362c2e32df0ddc3f0dc47bba6390b6c73bb50f9c3122ec844ad7c2b3e5",
   hx "3cb25f25faacd57a90434f64d0362f2a2d2d0a90cf1a5a4c5db02d56ecc4c5bf34007208d5b887185865");
  (hx "b0b1b2b3b4b5b6b7b8b9babbbcbdbebfc0c1c2c3c4c5c6c7c8c9cacbcccdcecfd0d1d2d3d4d5d6d7d8d9dadbdcdddedfe0e1e2e3e4e5e6e7e8e9eaebecedeeeff0f1f2f3f4f5f6f7f8f9fafbfcfdfeff",
   hx "06a6b88c5853361a06104c9ceb35b45cef760014904671014a193f40c15fc244",
   hx "b11e398dc80327a1c8e7f78c596a49344f012eda2d4efad8a050cc4c19afa97c59045a99cac7827271cb41c65e590e09da3275600c2f09b8367793a9aca3db71cc30c58179ec3e87c14c01d5c1f3434f1d87");
  (hx "",
   hx "19ef24a32c717b167f33a91d6f648bdf96596776afdb6377ac434c1c293ccb04",
   hx "8da4e775a563c18f715f802a063c5a31b8a11f5c5ee1879ec3454e5f3c738d2d9d201395faa4b61a96c8")].
