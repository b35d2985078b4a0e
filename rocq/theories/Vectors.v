(** The repository's own tests, run on the model with the instance [real]. Each is checked by
    evaluation when this file is compiled and is part of no proof: they are tests of the model, that
    is, of our reading of the code. *)
From Coq Require Import Ascii String.
From Verif Require Import Consensus Messages Chain Real Hashes.

(** Hexadecimal text. *)
Definition hex_digit (c : ascii) : N :=
  let n := N_of_ascii c in if n <? 58 then n - 48 else n - 87.
Fixpoint hex (s : string) : bytes :=
  match s with
  | String a (String b r) => n2b (16 * hex_digit a + hex_digit b) :: hex r
  | _ => []
  end.
Definition is_ok {A} (r : res A) : bool := match r with Ok _ => true | _ => false end.

(** consensus/block_test.go:9-13 — Testnet4 block 65,927. *)
Definition block_65927 : bytes :=
  (hex ("00010000000000010187000000005c04daea09ff0a5d1c0c9ccef8b8457265655d0ad83cc0674b9aaec959d5987bfec8" ++
   "e0e808971ecd08dfcc1c3fdf79d64e5ed5439cc70b1e3e14f48fbb9acc39f075904ddc6b24e1bb63fd8af854be5f2976" ++
   "f4ab6afe2f38a7af6e54347733e8f18f5571d96490abdb18827c562e08a70a132983daecfe07cb3990c7c7d76f1650d7" ++
   "324946d3a57e8dadc45757b1d3945befb5b894bc50b97e7d94080e6cd1355bcb645b54dfe00b7b7143a3eae538e59e90" ++
   "e921216f762d400ec1913a78045ca7430db40000000000056abf000000000003b5d0000000010a83b80200000bef2ea3" ++
   "e4fb0fbca5ec1d2376ef603e35303c1b07869384e010cc8120404feb073091015943d32e7f511fe6e69c09691292212e" ++
   "b96c55be63bb7e94c799e9da45730df568990fab2df53fc1ed6a6cb822dea607bdb3f9d2d062a162da5aa4ac7d8d2843" ++
   "195209ee71767fb4d2a0d059aae282596ff6972b901fab5db528b6e4257db76e0710f755666226f31d7d9a1aa9317901" ++
   "36db95d86e26f6e09cfbfbdca450c50300000000000000010000000000000003000000000000000200097d03927ae0e5" ++
   "dae4ae0c329daa41172410b8213cc8aac5af5ce149cf3ada3f0200081175fcf8c335ff7839d035c9fdecef7f93e2dd0a" ++
   "0a9d08f659cdb61c2e63605800000000000002a3460abccbe856f51f0a4248d8aaa93b171f66b9e51fa75492acb24a43" ++
   "6c84baf7e6c23f316124966ed9b36e7ad46f0516c39c4863bf472536df28faff947a3a3e065dcdc47bd1a9ab96bdfdfb" ++
   "9ea8ad25cdd0cab8eee308f90073469c758ad480301764f2109cd6ae0e7584640bd1833eae0507cf04f4c5c0380e1672" ++
   "940bf88b091726c10fee3b9bf217596a20813037d661091c3d89e743ac4ba0c159e4d8aefb35bbd11c46a9291ac5f8f1" ++
   "bd6932eb666f7847ef846a686ea4a0d711b359a2992b57c52e10e88455fd777945394a6de004f336d3b603dcfb2d2e30" ++
   "fea46f6d185ffd21e3d757a26d9d5fd3617f586a2a0ef8a29015c971e67ecdb184c18b6471a08af4de37bc50dd4c2e57" ++
   "8354bcd23e1a2cb66b84fb6d4e2aa429a0095306d027ba6ad1e4de3402337182c03adc0d970fa624e866468e4d070814" ++
   "62773002da6ff8c8ece6746f8f65131bdd55309c7b6b204c0d224d70ebdf84a523a32e1fa5250357eaa7554c7d120102" ++
   "18af014f2f2f147ca506747b356c3b83510b9ab394239faa4f9ff1962bc8dd798d6cb1a2c1541bf2acb8134a4354e481" ++
   "4827e7374ac3d909eb8b6b8596462570aa2243364dc657963609fc5cecae625b97bf7533810177a487939b1c928cb7c6" ++
   "6ac9a443b8a62b4bcd859ba5b888e069636a349e59d46bc1cc62612bf20fb8153d2c3029e776c21aae62f3e4d07aab6d" ++
   "747bdafca348de971200686c27f72fd405361e47eb3f795d9bba78d96a6b7489a05f1449dcbda37a08d4a8070d0a0381" ++
   "317221161ba0cc57c22819a43d4167da2d6b8f78088bb006ffc88cee29abf41286a20121fe34518692438bd88420f78c" ++
   "500a6927ea2b603bfd30996631b8cf27eeb26459aab2c328dd2eb060672f80ce7ecaab0f569ec1702bd486204529baec" ++
   "0bd7d2eded0ee7f32020217089213b6d2fce379a7315be0108bfd392f055a4870d75b447db31c59daa27eda8471f40dc" ++
   "fcb3a8fa399ae0afe100000000000002a3fd3b70fa382fa153ed195eb2d21fa0a3c275ad16c9aebe32f76f1e3f69e3e9" ++
   "34f35bc21360b456da9a982d01b25dfb1868b6154bd4b5eebd1b8d7b907a6ea1510416213cf947b28234130e390c2a48" ++
   "93ac399b36718d3d2ca9d894fb2bb512fa741258da97a1b4697db3a72ab3bb081aa408ae5566c06a3fdecb0281463d32" ++
   "9371331d5d7c5bed3a9493f2998314c83f7c7c42ecf2d5d1e1bfefe8987628b7ff0578ce51e718f15639d84942315862" ++
   "3bb78e82cf622b10258458342eebf162496d223a1e296753eaeb6d231714455bfd5ee31d574642cb31d25458d8a0ddf4" ++
   "c4ea6aab4ace94a92435fd4e6bebe5f9f5d7bc8e18320d72288297a486586f06c78a00957b34529750cfe4824b795895" ++
   "87f54e9082e88d6e20eec484197cdb8ea418622f27a74489061040a23e5b234a8ac220807bdad3387398417b1e92a6d6" ++
   "ecbbad59967c19f7ec8fb214cb11403b4927c17d2e7367b8354c1dd42a5306c2ab19fd01226fe8cbbccc1ab2054016ba" ++
   "748377f74d9365f40f0b8771f33c5199c492253504cd9e369f456c560ae1958764e71f1e5a7060f072882fb7cc08d197" ++
   "5e4a27350d6a9a2895626fe480d5d7107976ca57fc489f17212cd20ce3041e9bf77c3a15f2ca654c980ee97fb600310c" ++
   "af01091a66db2ef065e89f51b7e3c6670a042ef55e803a1d443e051efc9803f5610dd358beb251aa0edb58133f0a4686" ++
   "9b4a08e46d2ae974bfc9e6cdd1e7af6eda4dc9fde07fa0f6a5ace4d8f43bcd019df4939e7d990f4d2828cc83fd0cc473" ++
   "69a13b71e212c142927df67faf280ea071c3043980e3fd1955398aeb1df7f769526dfb3ad4851b94d0e1e3c452b69940" ++
   "7fec48d6ac8593b505c774a4f0a60dd63c0aa11cc12c7a201856f80c0423e73aa42dde50502aefb9c0276ecb4508ed6f" ++
   "22927767c791cd4535adabe5b6695076c5ec0aa90008c1806612f951ecc80f7f4e9258b4d089713bd19094cd8829ffe4" ++
   "ba7c02e9e81300000000000002a3f6fff7b0775aca3d2db82e41f28cca051f3a479ec229e1d18445b8fb2c9fb3658b31" ++
   "fb733c7511364210c937a17dffe30850281af266f5cc9f82328a1440c42b0933fc288d720a6a4b60715bca84d36ca3e5" ++
   "78ef61ca8cd8444d0289586dc82cd1d55d007f15d1e76a1a6c9287d11f2be6dcc5531e65eabdf63a1463860a694a59a7" ++
   "e48d3ed7c324aaad92f58f11394874b7b9f982af598b70c450c26b978311df16f9586a8d60290017a20b5b3c73028716" ++
   "d450b1767a4d20d76f4cce34ad7d9fe3e983191f3bdf2b40fa8049cc58f8bc27fd389101bb12ded0106556f6a494baf2" ++
   "dbc89910fada29c8faf8bee9ffcff5736085fe37018fe3bd48f5b71f10f47079b2db98b89480dcaa09e85c6aa6ec2ee9" ++
   "ca71b912ecaae2e2700d090905b0e999eea68ed40a9ddbf5c0509c86c122cc4ecfe94b86d705aa463de2ddfddc4083cc" ++
   "731b300a7ebe01fb1a6c42bbd730e21246f6a84aafd1f21d7abd8cb94f4bb37b008919348436d7b9c477694d44c4ffca" ++
   "00c452d2940ed35c1006f9d1b4d583748585525c8febc321ffd75d802bf15772e3458ed478dd08456e3048358eb8740d" ++
   "5260b599a8e7f200e0a3a3136b5f8cf2b286b73eac5c59f0ee52e64483d5ca3a874075098258994fb4d3262483997f0e" ++
   "f8a118445a3f3923dd7805f2d75f4a0163eb9c6871c3ce111b4593d2a9f42817efac9a65c1a1324405307ca25189ec4a" ++
   "ee9f5bef1711021cc83a86db752e1f141a0edef9ee3ae04496822a888a9b5cf412225f300eeee906558a40251a96a618" ++
   "cc23d67c48f23d5bb1ea172df5a2445cb9cd745c3736a7b44a263e721a5caf7e35e83bed527555be62eeca7c9f07e8f8" ++
   "27bfbc5ae006b03d52c934c333ca564ca532c6e3d0f0ad85acdc9834bdd95c91b3cc13a6b5f0b101575f3921a8173c77" ++
   "8428a98bfe9e5666a65fa39d4dddb7f29d0000000000007a1200000000000001018508dfc4fe50a03eddd23a2a6b167d" ++
   "5ffdcc065a725c4e1c42904dcbc80270d78b16684c83b88bda7443c376dbf4d25be1412935221d66ab0c86cc52756701" ++
   "920c93072d8632a5c25ae43bcbca2732b84b007d884a37c38601f244c957c3401b9f5001000000000000000000000000" ++
   "0001018709df142550facc1868d6cdf838b481b7841e240d55eeecbe865e9e646d2a26584fb4dd7951d4f06cf9afd710" ++
   "68a303fdd2d7f1636c83a879d7f41dabdbce6c34df05e3b39d3893c390e938d50760aa0a68a28d5213e2ee7c808232c8" ++
   "bea090c2a8")%string).
(** consensus/transaction_test.go:11-12. *)
Definition test_tx : bytes :=
  (hex ("d29efa3aa282679fba8353ac370bc9994394d1b1964fb4830c58bf4a402d4f8000000000000000010000000000000002" ++
   "00000000000000010009de9aceb09ff7cc422a3704dddf9373a7bdcc8805b2f81a9ee05786f49238a7660008bc127c31" ++
   "911faf56ed4b3bcc9819dc34b47e104de991ce32519ec333c6638e0600000000000002a34199a825fc69cd4030d11924" ++
   "f3011bba3322fecf866bfd44b05d84ddf4c5fada39284bb90e3594386bb8b116825f90ab2c9ea7e3bbec047a3c0b2586" ++
   "bb58dc520f9687a3f713f6921109ea6474f8219fdbd2aa2b37620b5f2b1da736f6ee43e9d8216ebbc921a8355db69522" ++
   "10d625a89155d60f32ed3deb8dabbc8a8f059bbfa1f1803a367a404121824db8111202311641d61b5c03e0c694b326e4" ++
   "124c3dc9c48a7d9b745bc0e1f1db6cf746d7d183300e3f212d6e4bc4c69b4275644993bd1766d732862ff77ebb1667a8" ++
   "ff9e318338f91cbb0b494e5b934721f24818acfaf27ab2cf5ca78aefa6510bb032666e198000f7b81499fc50fa4ba40b" ++
   "8e866721fa69e08940968769459ae60c22bef2c1ffb6f472243a04ffa049af2cb0ab206349c03cad3c3e40d46f0a5d19" ++
   "99825df1d5af75caa726ec78eb312a716468e8e455071c109a01086c5531fce7d1dad145ceba46a55a32096c23ab867a" ++
   "4842e650f8630027a5206192d55bfae463a340cd95143139af48fa175f158ee0be66715409c1d2db2630a2e85e414cc1" ++
   "23bb4a67dfd0b9ea05e22dea7b2fc5f2c28462cb1a74f1e63a513826d9403f38067a68cf5e3172b4023c541d97480ed2" ++
   "421179d7e2abee1d5e11524971adc95682845bea7303427423ec84adf7c4bf99a1f03d6fc02ca6a6328d81c4b23c1c72" ++
   "30a9e0d42b000b885dbd0681ada4ddef22386c97ee1a9dad87c39234ceefc3b5ec41c744f546924a5de250c7f5e1bfe8" ++
   "ee631dc049ec748c0f3702d8b2f2e650af38c5287a64ebe51b43c527978a16226a0eb4b632a11ec51040627e92ce2529" ++
   "c30e3e1b34170d490d5f50abe57fed3e6c2fcde6c39115e002edb5eae0b9a006434ca8e8985e4bf93cb20ee52342b469" ++
   "8865d870258e8ac9a15c55853eabef06f32b12ba28bbec31ecbac8a8bfe12e5c0ccfa21c1a5120000832a3990cd8a497" ++
   "ad280394afeaa5fcbdf02d6e8c86eb7fc47ba6bb25cd8973fd00000000000002a38bfaaaeebbba7ff4b614c753907296" ++
   "66e2ce1cfa0d5fa9d33c7e8327dd468711b1cd2e6a72108735e183ab232114969adf1bda21b78d524ac8d76ab1f68b8c" ++
   "5700c09e2ec7874e6948d6367f8af295b54806dcfe46021ed115f74ba0679509e1b650def8083790f8e26745fa3141d6" ++
   "9fd350c7c726bc9453d3e1598cae27f8c131f233de12d947bb4b0c0b0d12fb147d4780eca856b380f9a8a952031e201d" ++
   "12bfc7815082fa7710a0e57feb0a514b8dddcf98c277cc16b6c5347805afc095ad304dbada87330648c6ef0a18f21ad6" ++
   "dde0460c416811f1276e8ea335491b8e297be2f27e8e827f112ef66a3f86e978c39ea770c084d4dbaa96dcfab6966c82" ++
   "2a3ef3af42435602689ed3c3b4578097e06a8f609b442ee309a5e5348dcbad74086c9ebb72fa6588db3316dd9e41262c" ++
   "d807b8565d3b1e1a71e7400e90aeffb841ace29355ebd07521672f8b8c1d32f055b8d794bc8ad46150efb595e171cad2" ++
   "0f0d0700594fa5d850eb688f4b871c43c8ef039679b2b282ab968a91e4e78d5f223a4acac2484240496912b875c87c5f" ++
   "ca8490a78fe78fc18c8f17b87ce8300d8a7360b3e2878302c57747ceb107556640c620c64b196b5a94079b188086d456" ++
   "554fae8cc33e0dab35618e3a4c7645fd16112443f649f2e0b679d63dea8d5da2ed783af2d068b1d830c821af27b954da" ++
   "ab77405736258d25c005b9b98634a816d266264d1097824f479ab9addec644e744c579a8b4c0b814ee147a241098de6f" ++
   "b739c88e32828130b62435d7b7836cbd213f7b364e156ee42ed69aa8d83dd5d97af3e4ab2af17e14fab5276bbc0c1243" ++
   "996fed445648a882e5e1a53509ecd5225bbce19f82937ff680f476619242096cff5cf2e19712f62bdeac1488824db694" ++
   "5583bfea1762f26f76dccbd9b1c970e242632480b1abbdb709ce1fbfaf7a092051bdb3dc0000000000007a1200000000" ++
   "000001011908b3e6f62be2a299e1c96627822f1228aeb977a79a7074872e91cb6d0c2f239ab9752e5a56dd5d0d16bfa7" ++
   "c19defe154b1185b3d40acb34d75e73d3de288c5c9dc6326369b0d216ac21ef5e2240f3578e7503aa71a4405ce8f2ee6" ++
   "a0696ed98de7")%string).
(** p2p/message_test.go:12. *)
Definition test_shake : bytes :=
  (hex ("543402000000000000004500000001000000060000000000007530000000000000000d4d572f4772696e20302e332e30" ++
   "006642e037a073b89c00f48c93cf1b701b335dab84b538136f63b6feadaa50d6")%string).

(** chain/chain_test.go:9-17 — TestGenesisHash. *)
Check (@eq_refl bool true <: match block_hash real (testnet4 real) with
  | Ok h => bytes_eqb h (hex "0644cedb1acfdde4ee9e135ae61de3cbeb301b5f27a40a2c366da8e724292f20")
  | _ => false end = true).

(** consensus/consensus_test.go:13-39 — TestHash_ShortID. *)
Definition short_is (h bh id : string) : bool :=
  match short_id real (hex h) (hex bh) with Ok i => bytes_eqb i (hex id) | _ => false end.
Definition zeros : string := "0000000000000000000000000000000000000000000000000000000000000000".
Definition hash_a : string := "81e47a19e6b29b0a65b9591762ce5143ed30d0261e5d24a3201752506b20f15c".
Definition hash_b : string := "3a42e66e46dd7633b57d1f921780a1ac715e6b93c19ee52ab714178eb3a9f673".
Check (@eq_refl bool true <: short_is hash_a zeros "e973960ba690" && short_is hash_b zeros "f0c06e838e59" &&
  short_is hash_b hash_a "95bf0ca12d5b" = true).

(** consensus/block_test.go:16-40 — TestBlockValidate (with a clock a little after the block's time,
    and without the verification of range proofs) and TestBlockSerialize. *)
Check (@eq_refl bool true <: match block_read real block_65927 with
  | Ok (b, rest) =>
      (lenN rest =? 0) && (h_height (b_header b) =? 65927) &&
      is_ok (header_validate real (time_unix 1543822100) (b_header b)) &&
      is_ok (block_validate real (time_unix 1543822100) b) &&
      match block_bytes real b with Ok (bs, _) => bytes_eqb bs block_65927 | _ => false end
  | _ => false end = true).

(** consensus/transaction_test.go:10-20 — TestTransactionDeserialization; all bytes are consumed. *)
Check (@eq_refl bool true <: match tx_read real test_tx with Ok (_, []) => true | _ => false end = true).

(** consensus/transaction_test.go:22-36 — TestTransactionOutputSerialize. *)
Check (@eq_refl bool true <: let b := hex "0832a3990cd8a497ad280394afeaa5fcbdf02d6e8c86eb7fc47ba6bb25cd8973fd" in
  match point_read real b with Ok (p, []) => bytes_eqb (point_enc real p) b | _ => false end = true).

(** secp256k1zkp/schnorr_test.go:27-42 — TestVerifySignature, with the nonce 5; and the wrong message
    does not verify. *)
Check (@eq_refl bool true <: let P := c_smul real (c_G real) 8 in
  let sg := sign_message real 5 P 8 (brepeat x00 32) in
  verify_signature real P (brepeat x00 32) sg && negb (verify_signature real P (brepeat x01 32) sg) = true).

(** secp256k1zkp/schnorr_test.go:44-59 — TestVerifyKernel. *)
Check (@eq_refl bool true <:
  match point_read real (hex "092095ceab2c20f9a6109a7b0add8d488b3838dcc007c77a43cbe99a14a81b62e8") with
  | Ok (excess, _) => verify_signature real excess (compute_message 2 0) (decode_signature real
      (hex ("804b2ed798221e8f4c139daeedeab487221be33db1adf9e129928564e1702b02" ++
            "fbbacaf4cbe4c4b122a9b39d2a7625b9254e43eeade171e9ccafda6dd8538acc")%string))
  | _ => false end = true).

(** p2p/message_test.go:10-39 — TestShakeParsing. *)
Check (@eq_refl bool true <: match read_message real true type_shake test_shake with
  | (n, Ok (MShake s, [])) =>
      (n =? lenN test_shake) && (sk_version s =? 1) && (sk_caps s =? 6) && (sk_difficulty s =? 30000) &&
      bytes_eqb (sk_agent s) (hex "4d572f4772696e20302e332e30")
  | _ => false end = true).
