(** * Fixtures: the binary files the crate's unit tests use, byte for byte (generated from /repo; runs of zeros are
    written [zeros n]). *)
From Coq Require Import Strings.String Strings.Ascii.
From Verif Require Import Base.
Local Open Scope list_scope.

(** Two hexadecimal digits per byte. *)
(** Notation for the binary files that src/loader/elf/mod.rs:445-470, src/loader/bzimage/mod.rs:187-324 and src/loader/pe/mod.rs:251-260 include. *)
Definition hex_digit (c : ascii) : N :=
  let n := N_of_ascii c in if n <? 58 then n - 48 else n - 87.
(** Notation for the binary files that src/loader/elf/mod.rs:445-470, src/loader/bzimage/mod.rs:187-324 and src/loader/pe/mod.rs:251-260 include. *)
Fixpoint hex (s : string) : bytes :=
  match s with
  | String a (String b r) => b8 (16 * hex_digit a + hex_digit b) :: hex r
  | _ => []
  end.

(** src/loader/elf/test_elf.bin, 640 bytes. *)
Definition test_elf_bin : bytes :=
  hex "7f454c4602010103000000000000000002003e0001000000000400000000000040000000000000004001000000000000" ++
  hex "000000004000380002004000050001000100000005000000b00000000000000000040000000000000000000000000000" ++
  hex "1d000000000000001d0000000000000010000000000000000100000006000000d0000000000000002004000000000000" ++
  hex "20040000000000000e000000000000000e000000000000001000000000000000b804000000bb01000000b920800408ba" ++
  hex "0e000000cd80b801000000cd8000000048656c6c6f2c20576f726c64210a002e7368737472746162002e74657874002e" ++
  hex "64617461002e6e6f7465001100000000000000010000004372656174656420627920454c46494f000000000e00000006" ++
  hex "000000010000004e657665722065617369657221000000313233343536" ++
  zeros 67 ++
  hex "010000000300000000000000000000000000000000000000de000000000000001d000000000000000000000000000000" ++
  hex "010000000000000000000000000000000b0000000100000006000000000000000004000000000000b000000000000000" ++
  hex "1d0000000000000000000000000000001000000000000000000000000000000011000000010000000300000000000000" ++
  hex "2004000000000000d0000000000000000e00000000000000000000000000000004000000000000000000000000000000" ++
  hex "170000000700000000000000000000000000000000000000fb0000000000000044000000000000000000000000000000" ++
  hex "01000000000000000000000000000000".

(** src/loader/elf/test_elfnote.bin, 636 bytes. *)
Definition test_elfnote_bin : bytes :=
  hex "7f454c4602010103000000000000000002003e0001000000080140000000000040000000000000003c01000000000000" ++
  hex "000000004000380002004000050001000100000004000000080100000000000000004000000000000000400000000000" ++
  hex "0000000000000000000000000000000000002000000000000400000004000000b000000000000000b000400000000000" ++
  hex "b00040000000000058000000000000005800000000000000040000000000000006000000080000000100000064756d6d" ++
  hex "79000000fecafeca0000000004000000080000001200000058656e001ffee10100000000040000001400000003000000" ++
  hex "474e550028cc3d3d89e5bfc607a8cee329cc70d0bf34692b002e7368737472746162002e6e6f74652e64756d6d79002e" ++
  hex "6e6f74652e58656e002e6e6f74652e676e752e6275696c642d6964" ++
  zeros 65 ++
  hex "010000000300000000000000000000000000000000000000080100000000000034000000000000000000000000000000" ++
  hex "010000000000000000000000000000000b000000070000000200000000000000b000400000000000b000000000000000" ++
  hex "1c0000000000000000000000000000000400000000000000000000000000000017000000070000000200000000000000" ++
  hex "cc00400000000000cc000000000000001800000000000000000000000000000004000000000000000000000000000000" ++
  hex "21000000070000000200000000000000e400400000000000e40000000000000024000000000000000000000000000000" ++
  hex "04000000000000000000000000000000".

(** src/loader/elf/test_elfnote_8byte_align.bin, 636 bytes. *)
Definition test_elfnote_8byte_align_bin : bytes :=
  hex "7f454c4602010103000000000000000002003e0001000000080140000000000040000000000000003c01000000000000" ++
  hex "000000004000380002004000050001000100000004000000080100000000000000004000000000000000400000000000" ++
  hex "0000000000000000000000000000000000002000000000000400000004000000b000000000000000b000400000000000" ++
  hex "b00040000000000058000000000000005800000000000000080000000000000006000000080000000100000064756d6d" ++
  hex "79000000fecafeca0000000004000000080000001200000058656e001ffee10100000000040000001400000003000000" ++
  hex "474e550028cc3d3d89e5bfc607a8cee329cc70d0bf34692b002e7368737472746162002e6e6f74652e64756d6d79002e" ++
  hex "6e6f74652e58656e002e6e6f74652e676e752e6275696c642d6964" ++
  zeros 65 ++
  hex "010000000300000000000000000000000000000000000000080100000000000034000000000000000000000000000000" ++
  hex "010000000000000000000000000000000b000000070000000200000000000000b000400000000000b000000000000000" ++
  hex "1c0000000000000000000000000000000400000000000000000000000000000017000000070000000200000000000000" ++
  hex "cc00400000000000cc000000000000001800000000000000000000000000000004000000000000000000000000000000" ++
  hex "21000000070000000200000000000000e400400000000000e40000000000000024000000000000000000000000000000" ++
  hex "04000000000000000000000000000000".

(** src/loader/elf/test_dummy_note.bin, 412 bytes. *)
Definition test_dummy_note_bin : bytes :=
  hex "7f454c4602010103000000000000000002003e000100000004014000000000004000000000000000dc00000000000000" ++
  hex "000000004000380002004000030001000100000004000000c40000000000000000004000000000000000000000000000" ++
  hex "0000000000000000000000000000000000002000000000000400000004000000b000000000000000e000400000000000" ++
  hex "e00040000000000014000000000000001400000000000000040000000000000006000000000000001200000064756d6d" ++
  hex "79000000002e7368737472746162002e6e6f74652e64756d6d79" ++
  zeros 66 ++
  hex "010000000300000000000000000000000000000000000000c40000000000000017000000000000000000000000000000" ++
  hex "010000000000000000000000000000000b000000070000000200000000000000e000400000000000b000000000000000" ++
  hex "1400000000000000000000000000000004000000000000000000000000000000".

(** src/loader/elf/test_invalid_pvh_note.bin, 412 bytes. *)
Definition test_invalid_pvh_note_bin : bytes :=
  hex "7f454c4602010103000000000000000002003e000100000004014000000000004000000000000000dc00000000000000" ++
  hex "000000004000380002004000030001000100000004000000c40000000000000000004000000000000000000000000000" ++
  hex "0000000000000000000000000000000000002000000000000400000004000000b000000000000000e000400000000000" ++
  hex "e00040000000000014000000000000001400000000000000040000000000000004000000020000001200000058656e00" ++
  hex "1f1e0000002e7368737472746162002e6e6f74652e58656e" ++
  zeros 68 ++
  hex "010000000300000000000000000000000000000000000000c40000000000000015000000000000000000000000000000" ++
  hex "010000000000000000000000000000000b000000070000000200000000000000e000400000000000b000000000000000" ++
  hex "1400000000000000000000000000000004000000000000000000000000000000".

(** src/loader/elf/test_bad_align.bin, 728 bytes. *)
Definition test_bad_align_bin : bytes :=
  hex "7f454c4602010103000000000000000002003e0001000000000400000000000040000000000000009801000000000000" ++
  hex "000000004000380002004000050001000100000005000000000100000000000000040000000000000004000000000000" ++
  hex "1d000000000000001d000000000000000001000000000000040000000600000026010000000000002080048888000000" ++
  hex "2080048888000000100000000000000010000000000000000d" ++
  zeros 87 ++
  hex "b804000000bb01000000b920800408ba0e000000cd80b801000000cd80000000000000000000000048656c6c6f2c2057" ++
  hex "6f726c64210a002e7368737472746162002e74657874002e64617461002e6e6f74650011000000000000000100000043" ++
  hex "72656174656420627920454c46494f000000000e00000006000000010000004e65766572206561736965722100000031" ++
  hex "3233343536" ++
  zeros 67 ++
  hex "01000000030000000000000000000000000000000000000036010000000000001d000000000000000000000000000000" ++
  hex "010000000000000000000000000000000b00000001000000060000000000000000040000000000000001000000000000" ++
  hex "1d0000000000000000000000000000001000000000000000000000000000000011000000010000000300000000000000" ++
  hex "228004888800000028010000000000000e00000000000000000000000000000004000000000000000000000000000000" ++
  hex "170000000700000000000000000000000000000000000000530100000000000044000000000000000000000000000000" ++
  hex "01000000000000000000000000000000".

(** src/loader/bzimage/fuzz_invalid_bzimage.bin, 559 bytes. *)
Definition fuzz_invalid_bzimage_bin : bytes :=
  hex "c6c6c6c6c6c6c6c6c6c6c6c6c6c6c6c6c6c6c6c6c6c6c6c6c6c6c6c6c6c6c6c6c6c6c6c63fc6c6c60000000000000000" ++
  hex "00000000c6c6c6c6c6c6c6c6c6c6c6c6c6c6c6c6c6c6c6c6c6c6c6bfc6c6c6c6c6c6c6c6c6c6c6c6" ++
  zeros 34 ++
  hex "ffffffffffffffffffffffffffffffffffffffffffffffffffffffffffffffffffffffffffffffffff94949494949494" ++
  hex "94ffffffffffffffffffffffffffffffffffffffffffffffffffffffffffffffffffffffffffffffffffffffffffffff" ++
  hex "ffffffffffffffffffffffffffffffffffffffffffffffffffffffffffffffffffffffffffffffffffffffffffffffff" ++
  hex "ffffffffffffffffffffffffffffffffffffffffffff9494949494949494949494949494949494949494949494949494" ++
  hex "9494949494949400000000000000000000000000000000000000000000000000fb00000000000000f800000000000000" ++
  hex "000000000000000000000000000000000000000000949494949494949494949494527264489494949494949494949494" ++
  hex "94949494949494949494949494949494" ++
  zeros 65 ++
  hex "c6c6c6c6c6c6c6c6c6c6c6c6c6c6c6c6c6c6c6c6c6c6c648647253b9b9b9b900000000000000fffffffffffffffd9494" ++
  hex "9494949494949494949494c6c6c6c6c6c6c6c60a".

(** src/loader/pe/test_arm64_image.bin, 4096 bytes. *)
Definition test_arm64_image_bin : bytes :=
  hex "0040051400000000000008000000000000501900000000000a0000000000000000000000000000000000000000000000" ++
  hex "000000000000000041524d64" ++
  zeros 1988 ++
  hex "fd7bbca9fd030091f30b00f9f30300aa9c0a009480000035f30b40f9fd7bc4a8c0035fd6610250a91f0c40f201090054" ++
  hex "004138d5030440f9e00301aae20303aa001000b1e283829a00309fda1f0002fae0879f9ae00600b4b40f00f93f0023ea" ++
  hex "22009f9a9f2203d500008052540040b9c0090035b55b02a936423bd5df4203d5550c0090a0820391020080d223008052" ++
  hex "05400091b10080f9a1fc5f882400024a64000035a37c048884ffff3521080035c20b00d042601991408c42f81f0002eb" ++
  hex "20020054040080d204000014000040f91f0002ebc0040054010c42298102010a3f00036b41ffff54058c41a9618640f9" ++
  hex "2100058a3f0003eba1feff54041440f9f3ffff17b582039100008052a142009120fc9f0836421bd5b4d741a9b61740f9" ++
  hex "608640f91f0c40f201050054618240f9e20301aa80008052210080523b170094f30b40f9fd7bc4a8c0035fd6820080d2" ++
  hex "a0f300911d95019440feffb5b4d701a9b61700f9b43f40b9c4ffff17b582039100008052a142009120fc9f0836421bd5" ++
  hex "e40100b4e103142ae00313aa80003fd6b61740f9b4d741a940fcff35f30b40f9fd7bc4a8c0035fd6b40f40f9ddffff17" ++
  hex "004000911bfa0094beffff17b4d741a9b61740f9d7ffff17b4d701a9b61700f9000021d41f2003d5c30b00d063601991" ++
  hex "62e00091fd7bbfa9fd030091440440f9c40100b4633840b9450440b90300030a7f00056bc10000540c00001443144029" ++
  hex "0300030a7f00056b0001005442400091440440f944ffffb5e00301aa75ffff97fd7bc1a8c0035fd680003fd6fd7bc1a8" ++
  hex "c0035fd6000000002314001205038052fd7bbda9a409009084000091637ca59bfd030091f35301a99300038bf55b02a9" ++
  hex "f403012af60300aaf50302aa836863f860003fd640010034a08640f91f0c40f261010054620e4129e503142a600a40f9" ++
  hex "e40316aae10315aa68160094f35341a9f55b42a9fd7bc3a8c0035fd6e003142a7a170094e00316aae2290094f2ffff17" ++
  hex "c0035fd61f2003d5fd7bbfa9030080d2fd03009123421bd5d8ffff97fd7bc1a8c0035fd61f2003d5fd7bbfa9e60302aa" ++
  hex "fd030091428440f9420c40f24100005422421bd5070a00b0e503012ae40300aa23008052e2008052e10306aae0203091" ++
  hex "46160094fd7bc1a8c0035fd61f2003d5fd7bbda905038052040c00d084202591fd030091f35301a9f303012af55b02a9" ++
  hex "f60300aa63765bd3f50302aa637ca59b9400038b836863f860003fd6c000003520008052f35341a9f55b42a9fd7bc3a8" ++
  hex "c0035fd6820e4129e503132a800a40f9e40316aae10315aa2816009400008052f35341a9f55b42a9fd7bc3a8c0035fd6" ++
  hex "fd7bbca9c10b009021002491fd030091f35301a9140c0090f55b02a9f50300aaf76303a9f60301aa208c40f913300091" ++
  hex "17400091180440910b000014817246b93f0000714d000054e00200b9df3f03d5c09e40f9e30315aa22008052e103042a" ++
  hex "bc020194600240b904240012814000513fac0f7149feff549f3c0071c9000054f35341a9f55b42a9f76343a9fd7bc4a8" ++
  hex "c0035fd6e00200b9817246b93f0000714d000054000300b9bf3903d5e10315aae003042a93260094ebffff1700000000" ++
  hex "fd7bbda9420c0090fd030091429044b9f30b00f9f51300f95f000071ad080054420c009042a00f91411840b93f000071" ++
  hex "e2d79f1a6205003513cc38d59f3f03d562420051e4ff83525fac0f71f503132a6282447aa9070054b40f00f9140c0090" ++
  hex "817a46b93f000071cd060054617e409221cc18d5df3f03d5c40b0090e30300aa22008052e103152a804845f981020194" ++
  hex "e0010034807a46b91f0000710d040054e0ff8352bf02006b28010054737e409233cb18d5df3f03d5b40f40f9f30b40f9" ++
  hex "f51340f9fd7bc3a8c0035fd6b40f40f9f30b40f9f51340f9fd7bc3a8c0035fd61f2003d51f2003d51f2003d51f2003d5" ++
  hex "1f2003d51f2003d51f2003d51f2003d513cc38d51f2003d51f2003d51f2003d51f2003d59f3f03d5caffff17737e4092" ++
  hex "33cc18d5df3f03d5b40f40f9e9ffff17410c009022f041f942180653beffff17df3f03d5cdffff177f3e007128fcff54" ++
  hex "617e409221cc18d5df3f03d5020c0090427846b95f0000716d00005421cb18d5df3f03d5e10300aae003132a31260094" ++
  hex "d4ffff1700000000fd7bb9a9004138d5fd030091f35301a9f55b02a9750b00d0f76303a9b80b00d0f96b04a9b5020891" ++
  hex "fb7305a917c344f9012c40b9a16700b9e306009122781412011040b9022c00b9e20315aaa33700f92100041183d038d5" ++
  hex "5c6863b8011000b9b30b00b0540b00907302039194a2119156018052e00315aa81d038d51f6821b8ff4203d59b03c05a" ++
  hex "9f0300717b13c05afb079b1a9b030034fa0313aa1f2003d5657f7d939c27db1aa62000d19b03c05a4003068b7b13c05a" ++
  hex "010013cb87d038d5218843d321080091174138d5810a018bf91240b9236867b863040011236827b8416b66f85a03058b" ++
  hex "20003fd6e01240b91f00196bc10500549f030071fb079b1a1bfdff35400b009000600f9181d038d5016861f8004138d5" ++
  hex "3f0000ebe0040054df4203d5e00315aa81d038d51c6861b87c01003400c344f9a13740f9000001cbc000f8b6004138d5" ++
  hex "000040f960000837d606007101f9ff549e4a0094004138d5011040b9011040b9012c40b9a36740b9021040b921781412" ++
  hex "7a0015123a001a2a42000451021000b91a2c00b9021040b9f35341a9f55b42a9f76343a9f96b44a9fb7345a9fd7bc7a8" ++
  hex "c0035fd6e01240b9f91200b9d1ffff17f6380194d9ffff17" ++
  zeros 56.

(** src/loader/pe/test_riscv64_image.bin, 4096 bytes. *)
Definition test_riscv64_image_bin : bytes :=
  hex "4d5a6f10a00c0100000020000000000000f0f00000000000000000000000000002000000000000000000000000000000" ++
  hex "524953435600000052534305400000005045000064500200000000000000000000000000a00006020b02021400f07f00" ++
  hex "00f0700000000000263c6200001000000000000000000000001000000002000000000000010001000000000000000000" ++
  hex "00f0f00000100000000000000a" ++
  zeros 39 ++
  hex "06" ++
  zeros 51 ++
  hex "2e7465787400000000f07f000010000000f07f0000100000000000000000000000000000200000602e64617461000000" ++
  hex "00f070000000800000626b0000008000000000000000000000000000400000c013000000130000001300000013000000" ++
  hex "130000001300000013000000130000001300000013000000130000001300000013000000130000001300000013000000" ++
  hex "130000001300000013000000130000001300000013000000130000001300000013000000130000001300000013000000" ++
  hex "130000001300000013000000130000001300000013000000130000001300000013000000130000001300000013000000" ++
  hex "130000001300000013000000130000001300000013000000130000001300000013000000130000001300000013000000" ++
  hex "130000001300000013000000130000001300000013000000130000001300000013000000130000001300000013000000" ++
  hex "130000001300000013000000130000001300000013000000130000001300000013000000130000001300000013000000" ++
  hex "130000001300000013000000130000001300000013000000130000001300000013000000130000001300000013000000" ++
  hex "130000001300000013000000130000001300000013000000130000001300000013000000130000001300000013000000" ++
  hex "130000001300000013000000130000001300000013000000130000001300000013000000130000001300000013000000" ++
  hex "130000001300000013000000130000001300000013000000130000001300000013000000130000001300000013000000" ++
  hex "130000001300000013000000130000001300000013000000130000001300000013000000130000001300000013000000" ++
  hex "130000001300000013000000130000001300000013000000130000001300000013000000130000001300000013000000" ++
  hex "130000001300000013000000130000001300000013000000130000001300000013000000130000001300000013000000" ++
  hex "130000001300000013000000130000001300000013000000130000001300000013000000130000001300000013000000" ++
  hex "130000001300000013000000130000001300000013000000130000001300000013000000130000001300000013000000" ++
  hex "130000001300000013000000130000001300000013000000130000001300000013000000130000001300000013000000" ++
  hex "130000001300000013000000130000001300000013000000130000001300000013000000130000001300000013000000" ++
  hex "130000001300000013000000130000001300000013000000130000001300000013000000130000001300000013000000" ++
  hex "130000001300000013000000130000001300000013000000130000001300000013000000130000001300000013000000" ++
  hex "130000001300000013000000130000001300000013000000130000001300000013000000130000001300000013000000" ++
  hex "130000001300000013000000130000001300000013000000130000001300000013000000130000001300000013000000" ++
  hex "130000001300000013000000130000001300000013000000130000001300000013000000130000001300000013000000" ++
  hex "130000001300000013000000130000001300000013000000130000001300000013000000130000001300000013000000" ++
  hex "130000001300000013000000130000001300000013000000130000001300000013000000130000001300000013000000" ++
  hex "130000001300000013000000130000001300000013000000130000001300000013000000130000001300000013000000" ++
  hex "130000001300000013000000130000001300000013000000130000001300000013000000130000001300000013000000" ++
  hex "130000001300000013000000130000001300000013000000130000001300000013000000130000001300000013000000" ++
  hex "130000001300000013000000130000001300000013000000130000001300000013000000130000001300000013000000" ++
  hex "130000001300000013000000130000001300000013000000130000001300000013000000130000001300000013000000" ++
  hex "130000001300000013000000130000001300000013000000130000001300000013000000130000001300000013000000" ++
  hex "130000001300000013000000130000001300000013000000130000001300000013000000130000001300000013000000" ++
  hex "130000001300000013000000130000001300000013000000130000001300000013000000130000001300000013000000" ++
  hex "130000001300000013000000130000001300000013000000130000001300000013000000130000001300000013000000" ++
  hex "130000001300000013000000130000001300000013000000130000001300000013000000130000001300000013000000" ++
  hex "130000001300000013000000130000001300000013000000130000001300000013000000130000001300000013000000" ++
  hex "130000001300000013000000130000001300000013000000130000001300000013000000130000001300000013000000" ++
  hex "130000001300000013000000130000001300000013000000130000001300000013000000130000001300000013000000" ++
  hex "130000001300000013000000130000001300000013000000130000001300000013000000130000001300000013000000" ++
  hex "130000001300000013000000130000001300000013000000130000001300000013000000130000001300000013000000" ++
  hex "130000001300000013000000130000001300000013000000130000001300000013000000130000001300000013000000" ++
  hex "130000001300000013000000130000001300000013000000130000001300000013000000130000001300000013000000" ++
  hex "130000001300000013000000130000001300000013000000130000001300000013000000130000001300000013000000" ++
  hex "130000001300000013000000130000001300000013000000130000001300000013000000130000001300000013000000" ++
  hex "130000001300000013000000130000001300000013000000130000001300000013000000130000001300000013000000" ++
  hex "130000001300000013000000130000001300000013000000130000001300000013000000130000001300000013000000" ++
  hex "130000001300000013000000130000001300000013000000130000001300000013000000130000001300000013000000" ++
  hex "130000001300000013000000130000001300000013000000130000001300000013000000130000001300000013000000" ++
  hex "130000001300000013000000130000001300000013000000130000001300000013000000130000001300000013000000" ++
  hex "130000001300000013000000130000001300000013000000130000001300000013000000130000001300000013000000" ++
  hex "130000001300000013000000130000001300000013000000130000001300000013000000130000001300000013000000" ++
  hex "130000001300000013000000130000001300000013000000130000001300000013000000130000001300000013000000" ++
  hex "130000001300000013000000130000001300000013000000130000001300000013000000130000001300000013000000" ++
  hex "130000001300000013000000130000001300000013000000130000001300000013000000130000001300000013000000" ++
  hex "130000001300000013000000130000001300000013000000130000001300000013000000130000001300000013000000" ++
  hex "130000001300000013000000130000001300000013000000130000001300000013000000130000001300000013000000" ++
  hex "130000001300000013000000130000001300000013000000130000001300000013000000130000001300000013000000" ++
  hex "130000001300000013000000130000001300000013000000130000001300000013000000130000001300000013000000" ++
  hex "130000001300000013000000130000001300000013000000130000001300000013000000130000001300000013000000" ++
  hex "130000001300000013000000130000001300000013000000130000001300000013000000130000001300000013000000" ++
  hex "130000001300000013000000130000001300000013000000130000001300000013000000130000001300000013000000" ++
  hex "130000001300000013000000130000001300000013000000130000001300000013000000130000001300000013000000" ++
  hex "130000001300000013000000130000001300000013000000130000001300000013000000130000001300000013000000" ++
  hex "130000001300000013000000130000001300000013000000130000001300000013000000130000001300000013000000" ++
  hex "130000001300000013000000130000001300000013000000130000001300000013000000130000001300000013000000" ++
  hex "130000001300000013000000130000001300000013000000130000001300000013000000130000001300000013000000" ++
  hex "130000001300000013000000130000001300000013000000130000001300000013000000130000001300000013000000" ++
  hex "130000001300000013000000130000001300000013000000130000001300000013000000130000001300000013000000" ++
  hex "130000001300000013000000130000001300000013000000130000001300000013000000130000001300000013000000" ++
  hex "130000001300000013000000130000001300000013000000130000001300000013000000130000001300000013000000" ++
  hex "130000001300000013000000130000001300000013000000130000001300000013000000130000001300000013000000" ++
  hex "130000001300000013000000130000001300000013000000130000001300000013000000130000001300000013000000" ++
  hex "130000001300000013000000130000001300000013000000130000001300000013000000130000001300000013000000" ++
  hex "130000001300000013000000130000001300000013000000130000001300000013000000130000001300000013000000" ++
  hex "130000001300000013000000130000001300000013000000130000001300000013000000130000001300000013000000" ++
  hex "130000001300000013000000130000001300000013000000130000001300000013000000130000001300000013000000" ++
  hex "130000001300000013000000130000001300000013000000130000001300000013000000130000001300000013000000" ++
  hex "130000001300000013000000130000001300000013000000130000001300000013000000130000001300000013000000" ++
  hex "130000001300000013000000130000001300000013000000130000001300000013000000130000001300000013000000" ++
  hex "1300000013000000".
