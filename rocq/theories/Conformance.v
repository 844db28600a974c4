(** * Conformance: the crate's own unit tests and documentation examples, run on the model.

    Every assertion of the [#\[test\]] functions and doc tests in /repo/src, except those that need files that are not in the
    repository (the bzImage download and the vmlinux of a doc test).  Nothing here is a property: these are tests of the
    model, on the inputs of the crate's authors and with the results they expect, for both build profiles and both of
    vm-memory's copying strategies. *)
From Verif Require Import Base Io Mem Layout Text Cmdline Loader Elf BzImage Pe BootParams Configurators Display Fixtures.
From Coq Require Import Strings.String.
Local Open Scope list_scope.

(** src/loader/elf/mod.rs:438-443 and likewise in the other test modules. *)
Definition MEM_SIZE : N := 0x1000000.
(** src/loader/elf/mod.rs:441-443 and likewise in the other test modules. *)
Definition create_guest_mem : gmem := mkMem [mkRegion 0 MEM_SIZE] (fun _ => x00).
(** [std::io::Cursor::new(&image)]. *)
(** src/loader/elf/mod.rs:472-510. *)
Definition cursor (f : bytes) : reader := mkReader f 0 (2 ^ 64 - 1) (fun _ => 2 ^ 64) (fun _ _ => false) 0.
(** [File::open]. *)
(** src/loader/bzimage/mod.rs:187-324. *)
Definition file (f : bytes) : reader := mkReader f 0 (2 ^ 63 - 1) (fun _ => 2 ^ 63) (fun _ _ => false) 0.
(** For the assertions of src/loader/elf/mod.rs:472-637. *)
Definition outcome_map {E A B} (f : A -> B) (o : outcome E A) : outcome E B :=
  match o with Ok a => Ok (f a) | Err e => Err e | Panic p => Panic p end.

Ltac both := intros bld be; destruct bld, be; vm_compute; auto.

(** ** src/loader/elf/mod.rs *)
Definition elf bld be off img highmem := snd (elf_load bld be off highmem (cursor img) create_guest_mem).
(** For the assertions of src/loader/elf/mod.rs:472-637. *)
Definition load_addr (o : outcome lerror load_result) := outcome_map kernel_load o.
(** For the assertions of src/loader/elf/mod.rs:472-637. *)
Definition cap (o : outcome lerror load_result) := outcome_map pvh_boot_cap o.

Example test_load_elf : forall bld be,
  load_addr (elf bld be (Some 0x200000) test_elf_bin (Some 0)) = Ok 0x200400 /\
  load_addr (elf bld be (Some 0x200000) test_elf_bin None) = Ok 0x200400 /\
  load_addr (elf bld be None test_elf_bin (Some 0)) = Ok 0x400 /\
  elf bld be None test_elf_bin (Some 0xa00000) = Err (LElf InvalidEntryAddress).
Proof. both. Qed.

Example test_bad_magic_number : forall bld be,
  elf bld be (Some 0) (patch test_elf_bin 0x1 [x33]) None = Err (LElf InvalidElfMagicNumber).
Proof. both. Qed.

Example test_bad_endian : forall bld be,
  elf bld be (Some 0) (patch test_elf_bin 0x5 [x02]) None = Err (LElf BigEndianElfOnLittle).
Proof. both. Qed.

Example test_bad_phoff : forall bld be,
  elf bld be (Some 0) (patch test_elf_bin 0x20 [x10]) None = Err (LElf InvalidProgramHeaderOffset).
Proof. both. Qed.

Example test_load_pvh : forall bld be,
  cap (elf bld be None test_elfnote_bin None) = Ok (PvhEntryPresent 0x1e1fe1f) /\
  cap (elf bld be (Some 0x200000) test_elfnote_bin None) = Ok PvhEntryIgnored.
Proof. both. Qed.

Example test_dummy_elfnote : forall bld be, cap (elf bld be None test_dummy_note_bin None) = Ok PvhEntryNotPresent.
Proof. both. Qed.

Example test_bad_elfnote : forall bld be, elf bld be None test_invalid_pvh_note_bin None = Err (LElf InvalidPvhNote).
Proof. both. Qed.

Example test_load_pvh_with_align : forall bld be,
  snd (elf_load bld be None None (cursor test_bad_align_bin) (mkMem [mkRegion 0 0x10000000] (fun _ => x00))) <> Err (LElf Align) /\
  cap (elf bld be None test_elfnote_8byte_align_bin None) = Ok (PvhEntryPresent 0x1e1fe1f).
Proof. intros bld be; destruct bld, be; (split; [ vm_compute; discriminate | vm_compute; reflexivity ]). Qed.

Example test_overflow_loadaddr : forall bld be,
  elf bld be (Some (2 ^ 64 - 1)) test_elf_bin None = Err (LElf ElfOverflow).
Proof. both. Qed.

(** ** src/loader/bzimage/mod.rs *)
Example test_invalid_bzimage_underflow : forall be,
  snd (bz_load be (Some 0x200000) (Some 0) (file fuzz_invalid_bzimage_bin) create_guest_mem) = Err (LBz BzUnderflow).
Proof. intros be; destruct be; vm_compute; reflexivity. Qed.

(** ** src/loader/pe/mod.rs *)
Definition pe a be off img := snd (pe_load a be off None (cursor img) create_guest_mem).
(** For the assertions of src/loader/pe/mod.rs:262-315. *)
Definition ends (o : outcome lerror load_result) := outcome_map (fun r => (kernel_load r, kernel_end r)) o.

Example load_arm64_image : forall be,
  ends (pe Aarch64 be (Some 0x200000) test_arm64_image_bin) = Ok (0x280000, 0x281000) /\
  pe Aarch64 be (Some 0x300000) test_arm64_image_bin = Err (LPe InvalidBaseAddrAlignment) /\
  pe Aarch64 be (Some 0x200000) (patch test_arm64_image_bin 0x39 [x00]) = Err (LPe InvalidImageMagicNumber).
Proof. intros be; destruct be; vm_compute; auto. Qed.

Example load_riscv64_image : forall be,
  ends (pe Riscv64 be (Some 0x400000) test_riscv64_image_bin) = Ok (0x600000, 0x601000) /\
  pe Riscv64 be (Some 0x300000) test_riscv64_image_bin = Err (LPe InvalidBaseAddrAlignment) /\
  pe Riscv64 be (Some 0x400000) (patch test_riscv64_image_bin 0x38 [x00]) = Err (LPe InvalidImageMagicNumber).
Proof. intros be; destruct be; vm_compute; auto. Qed.

(** ** src/loader/mod.rs *)
(** Builder calls on [Cmdline::new(cap)], with every reply. *)
(** For the assertions of src/cmdline/mod.rs:577-924. *)
Fixpoint replies (bld : build) (c : cmdline) (os : list op) : cmdline * list (outcome cerror unit) :=
  match os with
  | [] => (c, [])
  | o :: r => let (c1, x) := run_op bld c o in let (c2, xs) := replies bld c1 r in (c2, x :: xs)
  end.
(** For the assertions of src/cmdline/mod.rs:577-924. *)
Definition built (bld : build) (cap : N) (os : list op) : cmdline := fst (replies bld (mkCmdline [] [] cap) os).
(** For the assertions of src/cmdline/mod.rs:577-924. *)
Definition said (bld : build) (cap : N) (os : list op) : list (outcome cerror unit) := snd (replies bld (mkCmdline [] [] cap) os).
(** For the assertions of src/cmdline/mod.rs:577-924. *)
Definition ok : outcome cerror unit := Ok tt.
(** For the assertions of src/cmdline/mod.rs:577-924. *)
Definition nul (s : string) : outcome cerror bytes := Ok (utf8 (txt s) ++ [x00]).

Example test_cmdline_overflow : forall bld be,
  let cl := built bld 10 [OpStr (txt "12345")] in
  let load a := snd (load_cmdline bld be create_guest_mem a cl) in
  cmdline_new 10 = Ok (mkCmdline [] [] 10) /\ said bld 10 [OpStr (txt "12345")] = [ok] /\
  load (2 ^ 64 - 1 - 5) = Err CommandLineOverflow /\ load (MEM_SIZE - 5) = Err CommandLineOverflow /\ load (MEM_SIZE - 6) = Ok tt.
Proof. both; repeat split. Qed.

Example test_cmdline_write_end_regresion : forall bld be,
  let gm := mkMem [mkRegion 0 MEM_SIZE] (fun a => if (45 <=? a) && (a <? 145) then x01 else x00) in
  let (m1, o1) := load_cmdline bld be gm 45 (built bld 10 []) in
  let (m2, o2) := load_cmdline bld be m1 45 (built bld 10 [OpStr (txt "123")]) in
  o1 = Ok tt /\ gm_byte m1 45 = x00 /\ o2 = Ok tt /\ map (gm_byte m2) [45; 46; 47; 48] = [x31; x32; x33; x00].
Proof. both; repeat split. Qed.

Example doc_load_cmdline : forall bld be,
  let (m, o) := load_cmdline bld be create_guest_mem 0x1000 (built bld 10 [OpInsert (txt "foo") (txt "bar")]) in
  o = Ok tt /\ map (gm_byte m) [0x1000; 0x1001; 0x1002; 0x1003; 0x1004; 0x1005; 0x1006; 0x1007] = utf8 (txt "foo=bar") ++ [x00].
Proof. both; repeat split. Qed.

(** ** src/cmdline/mod.rs *)
Ltac each := intros bld; destruct bld; vm_compute; repeat split.
Local Notation "'q'" := (String.String (Ascii.ascii_of_N 34) EmptyString).

Example test_insert_hello_world : forall bld,
  cmdline_to_vec (built bld 100 []) = Ok [x00] /\
  said bld 100 [OpInsert (txt "hello") (txt "world")] = [ok] /\
  cmdline_to_vec (built bld 100 [OpInsert (txt "hello") (txt "world")]) = nul "hello=world".
Proof. each. Qed.

Example test_insert_multi : forall bld,
  let os := [OpInsert (txt "hello") (txt "world"); OpInsert (txt "foo") (txt "bar")] in
  said bld 100 os = [ok; ok] /\ cmdline_to_vec (built bld 100 os) = nul "hello=world foo=bar".
Proof. each. Qed.

Example test_insert_space : forall bld,
  let bad := [OpInsert (txt "a ") (txt "b"); OpInsert (txt "a") (txt "b "); OpInsert (txt "a ") (txt "b ");
    OpInsert (txt " a") (txt "b"); OpInsert (txt "a") (txt ("hello " ++ q ++ "world"));
    OpInsert (txt "a") (txt (q ++ "foor bar" ++ q ++ " " ++ q ++ "foor bar" ++ q))] in
  let os := bad ++ [OpInsert (txt "a") (txt (q ++ "b b" ++ q)); OpInsert (txt "c") (txt (q ++ " d" ++ q))] in
  said bld 100 os = [Err HasSpace; Err NoQuoteSpace; Err HasSpace; Err HasSpace; Err InvalidQuote; Err InvalidQuote; ok; ok] /\
  cmdline_to_vec (built bld 100 bad) = Ok [x00] /\
  cmdline_to_vec (built bld 100 os) = nul ("a=" ++ q ++ "b b" ++ q ++ " c=" ++ q ++ " d" ++ q).
Proof. each. Qed.

Example test_insert_equals : forall bld,
  let os := [OpInsert (txt "a=") (txt "b"); OpInsert (txt "a=") (txt "b "); OpInsert (txt "=a") (txt "b")] in
  said bld 100 os = [Err HasEquals; Err HasEquals; Err HasEquals] /\ cmdline_to_vec (built bld 100 os) = Ok [x00].
Proof. each. Qed.

Example test_insert_emoji : forall bld,
  let heart : text := [0x1f496] in
  let os := [OpInsert (txt "heart") heart; OpInsert heart (txt "love"); OpStr (txt "heart=" ++ heart);
    OpMultiple heart [txt "heart"; txt "love"]; OpMultiple (txt "heart") [heart; txt "love"]] in
  said bld 100 os = [Err InvalidAscii; Err InvalidAscii; Err InvalidAscii; Err InvalidAscii; Err InvalidAscii] /\
  cmdline_to_vec (built bld 100 os) = Ok [x00].
Proof. each. Qed.

Example test_insert_string : forall bld,
  cmdline_to_vec (built bld 13 []) = Ok [x00] /\
  said bld 13 [OpStr (txt "noapic"); OpStr (txt "nopci")] = [ok; ok] /\
  cmdline_to_vec (built bld 13 [OpStr (txt "noapic")]) = nul "noapic" /\
  cmdline_to_vec (built bld 13 [OpStr (txt "noapic"); OpStr (txt "nopci")]) = nul "noapic nopci".
Proof. each. Qed.

Example test_insert_too_large : forall bld,
  let os := [OpInsert (txt "hello") (txt "world"); OpInsert (txt "a") (txt "world"); OpInsert (txt "hello") (txt "b");
    OpInsert (txt "a") (txt "b"); OpInsert (txt "a") (txt "b"); OpStr (txt "a")] in
  said bld 4 os = [Err TooLarge; Err TooLarge; Err TooLarge; ok; Err TooLarge; Err TooLarge] /\
  cmdline_to_vec (built bld 4 os) = nul "a=b" /\
  said bld 10 [OpInsert (txt "ab") (txt "ba"); OpInsert (txt "c") (txt "da"); OpInsert (txt "c") (txt "d")] = [ok; Err TooLarge; ok] /\
  said bld 11 [OpInsert (txt "ab") (txt "ba"); OpInit (txt "da"); OpInit (txt "d")] = [ok; Err TooLarge; ok] /\
  said bld 20 [OpInsert (txt "ab") (txt "ba"); OpInit (txt "da"); OpInit (txt "abcdabcd"); OpInit (txt "abcdabc")] =
    [ok; ok; Err TooLarge; ok].
Proof. each. Qed.

Example test_add_virtio_mmio_device : forall bld,
  said bld 5 [OpVirtio 0 0 0 None; OpVirtio 1 0 0 None] = [Err MmioSize; Err TooLarge] /\
  let d1 := [OpVirtio 1 0 1 None] in
  let d2 := d1 ++ [OpVirtio (N.shiftl 2 10) 0x100 2 None] in
  let d3 := d2 ++ [OpVirtio (N.shiftl 3 20) 0x1000 3 None] in
  let d4 := d3 ++ [OpVirtio (N.shiftl 4 30) 0x10000 4 (Some 42)] in
  said bld 150 d4 = [ok; ok; ok; ok] /\
  cmdline_to_vec (built bld 150 d1) = nul "virtio_mmio.device=1@0x0:1" /\
  cmdline_to_vec (built bld 150 d2) = nul "virtio_mmio.device=1@0x0:1 virtio_mmio.device=2K@0x100:2" /\
  cmdline_to_vec (built bld 150 d3) = nul "virtio_mmio.device=1@0x0:1 virtio_mmio.device=2K@0x100:2 virtio_mmio.device=3M@0x1000:3" /\
  cmdline_to_vec (built bld 150 d4) =
    nul "virtio_mmio.device=1@0x0:1 virtio_mmio.device=2K@0x100:2 virtio_mmio.device=3M@0x1000:3 virtio_mmio.device=4G@0x10000:4:42".
Proof. each. Qed.

Example test_insert_kv : forall bld,
  said bld 10 [OpMultiple (txt "foo=") []; OpMultiple (txt "foo") []; OpMultiple (txt "foo") [txt "bar "];
    OpMultiple (txt "foo") [txt "bar"; txt "baz"]] = [Err HasEquals; Err (MissingVal (txt "foo")); Err NoQuoteSpace; Err TooLarge] /\
  said bld 100 [OpMultiple (txt "foo") [txt "bar"]] = [ok] /\
  cmdline_to_vec (built bld 100 [OpMultiple (txt "foo") [txt "bar"]]) = nul "foo=bar" /\
  said bld 100 [OpMultiple (txt "foo") [txt "bar"; txt "baz"]] = [ok] /\
  cmdline_to_vec (built bld 100 [OpMultiple (txt "foo") [txt "bar"; txt "baz"]]) = nul "foo=bar,baz".
Proof. each. Qed.

Definition CMDLINE_MAX_SIZE : N := 4096.
(** For the assertions of src/cmdline/mod.rs:577-924. *)
Definition from (s : string) (cap : N) : outcome cerror cmdline := cmdline_try_from (txt s) cap.
(** For the assertions of src/cmdline/mod.rs:577-924. *)
Definition args (o : outcome cerror cmdline) : outcome cerror (text * text) := outcome_map (fun c => (boot_args c, init_args c)) o.
(** For the assertions of src/cmdline/mod.rs:577-924. *)
Definition both_args (a b : string) : outcome cerror (text * text) := Ok (txt a, txt b).

Example test_try_from_cmdline_for_vec : forall bld,
  cmdline_to_vec (built bld CMDLINE_MAX_SIZE []) = Ok [x00] /\
  match from "foo" CMDLINE_MAX_SIZE with Ok c => cmdline_to_vec c = Ok [x66; x6f; x6f; x00] | _ => False end /\
  said bld CMDLINE_MAX_SIZE [OpInit (txt "foo--bar")] = [ok] /\
  cmdline_to_vec (built bld CMDLINE_MAX_SIZE [OpInit (txt "foo--bar")]) = Err NoBootArgsInserted.
Proof. each. Qed.

Example test_partial_eq : forall bld,
  let c1 := built bld 20 [OpStr (txt "hello world!")] in
  let d := [OpVirtio 1 0 1 None] in
  said bld 20 [OpStr (txt "hello world!")] = [ok] /\ said bld 30 [OpStr (txt "hello"); OpStr (txt "world!")] = [ok; ok] /\
  cmdline_eq c1 (built bld 30 [OpStr (txt "hello")]) = false /\
  cmdline_eq c1 (built bld 30 [OpStr (txt "hello"); OpStr (txt "world!")]) = true /\
  cmdline_eq (built bld CMDLINE_MAX_SIZE []) (built bld CMDLINE_MAX_SIZE []) = true /\ said bld CMDLINE_MAX_SIZE d = [ok] /\
  cmdline_eq (built bld CMDLINE_MAX_SIZE d) (built bld CMDLINE_MAX_SIZE []) = false /\
  cmdline_eq (built bld CMDLINE_MAX_SIZE d) (built bld CMDLINE_MAX_SIZE d) = true.
Proof. each. Qed.

Example test_try_from :
  from "foo --  bar" 0 = Err InvalidCapacity /\ from "foo --  bar" 10 = Err InvalidCapacity /\
  args (from "foo --  bar" 11) = both_args "foo" "bar" /\
  args (from "hello=world foo=bar" CMDLINE_MAX_SIZE) = both_args "hello=world foo=bar" "" /\
  args (from "hello=world -- foo=bar" CMDLINE_MAX_SIZE) = both_args "hello=world" "foo=bar" /\
  args (from "hello=world --foo=bar -- arg1 --arg2" CMDLINE_MAX_SIZE) = both_args "hello=world --foo=bar" "arg1 --arg2" /\
  args (from "arg1-- arg2 --arg3" CMDLINE_MAX_SIZE) = both_args "arg1-- arg2 --arg3" "" /\
  args (from "--arg1-- -- arg2 -- --arg3" CMDLINE_MAX_SIZE) = both_args "--arg1--" "arg2 -- --arg3" /\
  args (from ("a=" ++ q ++ "b -- c" ++ q ++ " d -- e ") CMDLINE_MAX_SIZE) = both_args ("a=" ++ q ++ "b -- c" ++ q ++ " d") "e" /\
  args (from ("foo--bar=baz a=" ++ q ++ "b -- c" ++ q) CMDLINE_MAX_SIZE) = both_args ("foo--bar=baz a=" ++ q ++ "b -- c" ++ q) "" /\
  args (from "--foo --bar" CMDLINE_MAX_SIZE) = both_args "--foo --bar" "" /\
  args (from ("foo=" ++ q ++ "bar--baz" ++ q ++ " foo") CMDLINE_MAX_SIZE) = both_args ("foo=" ++ q ++ "bar--baz" ++ q ++ " foo") "".
Proof. vm_compute; repeat split. Qed.

Example test_error_try_from :
  from "" 0 = Err InvalidCapacity /\
  cmdline_try_from (repeat 88 (N.to_nat CMDLINE_MAX_SIZE)) (CMDLINE_MAX_SIZE - 1) = Err InvalidCapacity /\
  match from "console=ttyS0 nomodules -- /etc/password --param" CMDLINE_MAX_SIZE with
  | Ok c => cmdline_to_vec c = nul "console=ttyS0 nomodules -- /etc/password --param" | _ => False end.
Proof. vm_compute; repeat split. Qed.

Example test_as_cstring : forall bld,
  let o1 := [OpInit (txt "/etc/password")] in
  let o2 := o1 ++ [OpInsert (txt "console") (txt "ttyS0")] in
  let o3 := o2 ++ [OpStr (txt "nomodules")] in
  let o4 := o3 ++ [OpInit (txt "--param")] in
  let c os := built bld CMDLINE_MAX_SIZE os in
  said bld CMDLINE_MAX_SIZE o4 = [ok; ok; ok; ok] /\
  cmdline_to_vec (c []) = Ok [x00] /\ cmdline_to_vec (c o1) = Err NoBootArgsInserted /\
  boot_args (c o1) = [] /\ init_args (c o1) = txt "/etc/password" /\
  cmdline_to_vec (c o2) = nul "console=ttyS0 -- /etc/password" /\
  cmdline_to_vec (c o3) = nul "console=ttyS0 nomodules -- /etc/password" /\
  cmdline_to_vec (c o4) = nul "console=ttyS0 nomodules -- /etc/password --param".
Proof. each. Qed.

Example doc_cmdline : forall bld,
  cmdline_to_vec (built bld 100 [OpStr (txt "foobar")]) = nul "foobar" /\
  cmdline_to_vec (built bld 100 [OpInsert (txt "foo") (txt "bar")]) = nul "foo=bar" /\
  cmdline_to_vec (built bld 100 [OpMultiple (txt "foo") [txt "bar"; txt "baz"]]) = nul "foo=bar,baz" /\
  cmdline_to_vec (built bld 100 [OpStr (txt "foo"); OpInit (txt "bar")]) = nul "foo -- bar" /\
  cmdline_to_vec (built bld 20 [OpStr (txt "foo"); OpInit (txt "bar")]) = nul "foo -- bar" /\
  cmdline_to_vec (built bld 100 [OpVirtio (N.shiftl 1 12) 0x1000 5 (Some 42)]) = nul "virtio_mmio.device=4K@0x1000:5:42" /\
  match from "foo -- bar" 100 with Ok c => cmdline_to_vec c = nul "foo -- bar" | _ => False end.
Proof. each. Qed.

(** ** src/configurator/mod.rs *)
Example test_error_messages :
  let linux_msg := txt "Boot Configurator: failed to configure boot parameter by Linux Boot protocol." in
  let pvh_msg := txt "Boot Configurator: failed to configure boot parameter by PVH." in
  berror_display (BLinux ZeroPagePastRamEnd) = linux_msg /\ berror_display (BLinux ZeroPageSetup) = linux_msg /\
  berror_display (BPvh MemmapTableMissing) = pvh_msg /\ berror_display (BPvh MemmapTablePastRamEnd) = pvh_msg /\
  berror_display (BPvh MemmapTableSetup) = pvh_msg /\ berror_display (BPvh StartInfoPastRamEnd) = pvh_msg /\
  berror_display (BPvh StartInfoSetup) = pvh_msg /\
  berror_display (BFdt WriteFDTToMemory) = txt "Boot Configurator: failed to configure boot parameter by FDT." /\
  berror_display MissingStartAddress =
    txt "Boot Configurator: boot parameter was specified without its starting address in guest memory." /\
  berror_display BOverflow = txt "Boot Configurator: boot parameter address overflows." /\
  berror_display InvalidAddress = txt "Boot Configurator: boot parameter address precedes the starting address." /\
  (* src/configurator/fdt.rs, x86_64/linux.rs and x86_64/pvh.rs *)
  fdt_display FDTPastRamEnd = txt "Device Tree Boot Configurator: FDT does not fit in guest memory." /\
  fdt_display WriteFDTToMemory = txt "Device Tree Boot Configurator: error writing FDT in guest memory." /\
  linux_display ZeroPagePastRamEnd = txt "Linux Boot Configurator: the zero page extends past the end of guest memory." /\
  linux_display ZeroPageSetup = txt "Linux Boot Configurator: error writing to the zero page of guest memory." /\
  pvh_display MemmapTableMissing = txt "PVH Boot Configurator: no memory map was passed to the boot configurator." /\
  pvh_display MemmapTablePastRamEnd = txt "PVH Boot Configurator: the memory map table extends past the end of guest memory." /\
  pvh_display MemmapTableSetup = txt "PVH Boot Configurator: error writing memory map table to guest memory." /\
  pvh_display StartInfoPastRamEnd =
    txt "PVH Boot Configurator: the hvm_start_info structure extends past the end of guest memory." /\
  pvh_display StartInfoSetup = txt "PVH Boot Configurator: error writing hvm_start_info to guest memory.".
Proof. vm_compute; repeat split. Qed.

Example test_bootparam_list_addition : forall bld,
  let start := 0x1000 in
  let element := zeros 5 in
  add_to_list bld element None [] None = ([], None, Err MissingStartAddress) /\
  add_to_list bld element None [] (Some start) = (element, Some start, Ok start) /\
  add_to_list bld element (Some start) element None = (element, Some start, Ok start) /\
  add_to_list bld element (Some (start - 0x100)) element (Some start) = (element, Some start, Err InvalidAddress) /\
  add_to_list bld element None [] (Some start) = (element, Some start, Ok start) /\
  let two := element ++ [x02; x02; x02; x03; x03] in
  add_to_list bld [x02; x02; x02; x03; x03] None element (Some start) = (two, Some start, Ok (start + 5)) /\
  add_to_list bld [x01; x01; x01; x01; x01] (Some (start + 5 + 3)) two (Some start) =
    ([x00; x00; x00; x00; x00; x02; x02; x02; x01; x01; x01; x01; x01], Some start, Ok (start + 8)).
Proof. each. Qed.

Example test_bootparams : forall bld,
  let e := zeros 8 in
  let p0 := bp_new e 0x1000 in
  header p0 = e /\ header_start p0 = 0x1000 /\
  let p1 := set_sections p0 [e; e] 0x2000 in
  sections p1 = Some (zeros 16) /\ sections_start p1 = Some 0x2000 /\
  let p2 := set_sections p1 [e; e; e] 0x3000 in
  sections p2 = Some (zeros 24) /\ sections_start p2 = Some 0x3000 /\
  let (p3, o3) := add_section bld p2 e None in
  o3 = Ok (0x3000 + 24) /\ sections p3 = Some (zeros 32) /\ sections_start p3 = Some 0x3000 /\
  let p4 := set_modules p3 [e; e] 0x4000 in
  modules p4 = Some (zeros 16) /\ modules_start p4 = Some 0x4000 /\
  let p5 := set_modules p4 [e; e; e] 0x5000 in
  modules p5 = Some (zeros 24) /\ modules_start p5 = Some 0x5000 /\
  let (p6, o6) := add_module bld p5 e None in
  o6 = Ok (0x5000 + 24) /\
  let (p7, o7) := add_module bld p6 e None in
  o7 = Ok (0x5000 + 24 + 8).
Proof. each. Qed.

(** The structures of the doc tests have no fields, hence no bytes. *)
Example doc_bootparams : forall bld,
  let p0 := bp_new [] 0x1000 in
  let p1 := set_sections (set_sections p0 [[]] 0x2000) [] 0x3000 in
  sections p1 = Some [] /\ sections_start p1 = Some 0x3000 /\
  let p2 := set_modules (set_modules p0 [[]] 0x2000) [] 0x3000 in
  modules p2 = Some [] /\ modules_start p2 = Some 0x3000 /\
  (let (q1, o1) := add_section bld p0 [] None in
   let (q2, o2) := add_section bld q1 [] (Some 0x2000) in
   let (q3, o3) := add_section bld q2 [] (Some 0x2000) in
   let (q4, o4) := add_section bld q3 [] (Some (0x2000 - 0x100)) in
   let (q5, o5) := add_section bld q4 [] None in
   o1 = Err MissingStartAddress /\ o2 = Ok 0x2000 /\ o3 = Ok 0x2000 /\ o4 = Err InvalidAddress /\ o5 = Ok 0x2000) /\
  (let (q1, o1) := add_module bld p0 [] None in
   let (q2, o2) := add_module bld q1 [] (Some 0x2000) in
   let (q3, o3) := add_module bld q2 [] (Some 0x2000) in
   let (q4, o4) := add_module bld q3 [] (Some (0x2000 - 0x100)) in
   let (q5, o5) := add_module bld q4 [] None in
   o1 = Err MissingStartAddress /\ o2 = Ok 0x2000 /\ o3 = Ok 0x2000 /\ o4 = Err InvalidAddress /\ o5 = Ok 0x2000).
Proof. each. Qed.

(** ** src/configurator/fdt.rs *)
Example test_configure_fdt_boot : forall be,
  let last := last_addr create_guest_mem in
  let write a := snd (fdt_write_bootparams be (bp_new (zeros 0x20) a) create_guest_mem) in
  last = MEM_SIZE - 1 /\ write (last - 0x20 + 1) = Err (BFdt FDTPastRamEnd) /\ write (last - 0x20) = Ok tt.
Proof. intros be; destruct be; vm_compute; repeat split. Qed.

(** ** src/configurator/x86_64/linux.rs *)
Definition zero_page : bytes :=
  set boot_params [Fld "hdr"; Fld "type_of_loader"] 0xff
    (set boot_params [Fld "hdr"; Fld "kernel_alignment"] 0x1000000
      (set boot_params [Fld "hdr"; Fld "header"] 0x53726448
        (set boot_params [Fld "hdr"; Fld "boot_flag"] 0xaa55 (default_of boot_params)))).

Example test_configure_linux_boot : forall be,
  let last := last_addr create_guest_mem in
  let write a := snd (linux_write_bootparams be (bp_new zero_page a) create_guest_mem) in
  lenN zero_page = size boot_params /\
  write (last - size boot_params + 1) = Err (BLinux ZeroPagePastRamEnd) /\ write 0x30000 = Ok tt.
Proof. intros be; destruct be; vm_compute; repeat split. Qed.

(** ** src/configurator/x86_64/pvh.rs *)
Definition start_info : bytes :=
  set hvm_start_info [Fld "memmap_paddr"] 0x7000
    (set hvm_start_info [Fld "version"] 1 (set hvm_start_info [Fld "magic"] 0x336ec578 (default_of hvm_start_info))).
(** src/configurator/x86_64/pvh.rs:198-224. *)
Definition memmap_entry : bytes :=
  set hvm_memmap_table_entry [Fld "type_"] 1 (set hvm_memmap_table_entry [Fld "addr"] 0x7000 (default_of hvm_memmap_table_entry)).
Example type_is_a_field : Layout.get hvm_memmap_table_entry [Fld "type_"] memmap_entry = 1.
Proof. vm_compute; reflexivity. Qed.
(** src/configurator/x86_64/pvh.rs:198-224. *)
Definition modlist_entry : bytes :=
  set hvm_modlist_entry [Fld "size"] 0x100 (set hvm_modlist_entry [Fld "paddr"] 0x10000 (default_of hvm_modlist_entry)).

Example test_configure_pvh_boot : forall be,
  let last := last_addr create_guest_mem in
  let write p := snd (pvh_write_bootparams be p create_guest_mem) in
  let at_ a := bp_new start_info a in
  write (at_ 0x6000) = Err (BPvh MemmapTableMissing) /\
  write (set_sections (at_ (last - size hvm_start_info + 1)) [memmap_entry] 0x7000) = Err (BPvh StartInfoPastRamEnd) /\
  write (set_sections (at_ 0x100000) [memmap_entry] (last - size hvm_memmap_table_entry + 1)) = Err (BPvh MemmapTablePastRamEnd) /\
  write (set_modules (set_sections (at_ 0x100000) [memmap_entry] 0x7000) [modlist_entry] 0x6040) = Ok tt /\
  (* the doc test *)
  write (set_sections (at_ 0x6000) [memmap_entry] 0x7000) = Ok tt.
Proof. intros be; destruct be; vm_compute; repeat split. Qed.

(** ** src/lib.rs, the example of the crate's front page *)
Example doc_crate : forall bld be,
  let '(_, m1, o1) := elf_load bld be None None (cursor test_elfnote_bin) create_guest_mem in
  let (m2, o2) := pvh_write_bootparams be (set_sections (bp_new start_info 0x6000) [memmap_entry] 0x7000) m1 in
  cap o1 = Ok (PvhEntryPresent 0x1e1fe1f) /\ o2 = Ok tt /\
  map (gm_byte m2) [0x6000; 0x6001; 0x6002; 0x6003; 0x7001; 0x7010] = [x78; xc5; x6e; x33; x70; x01].
Proof. both; repeat split. Qed.

(** ** The compile-time assertions: src/loader_gen/x86_64/bootparam.rs:376-387, start_info.rs:54-56, elf.rs:767-786 *)
Example layout_assertions :
  size screen_info = 0x40 /\ size apm_bios_info = 0x14 /\ size ist_info = 0x10 /\ size edid_info = 0x80 /\
  size boot_e820_entry = 20 /\ size edd_device_params = 74 /\ size edd_info = 8 + 74 /\
  size sys_desc_table = 0x10 /\ size olpc_ofw_header = 0x10 /\ size efi_info = 0x20 /\
  size setup_header = 123 /\ size boot_params = 4096 /\
  size hvm_start_info = 56 /\ size hvm_modlist_entry = 32 /\ size hvm_memmap_table_entry = 24 /\
  size Elf32_Ehdr = 52 /\ size Elf64_Ehdr = 64 /\ size Elf32_Phdr = 32 /\ size Elf64_Phdr = 56 /\ size Elf32_Shdr = 40 /\
  size Elf64_Shdr = 64 /\ size Elf32_Sym = 16 /\ size Elf64_Sym = 24 /\ size Elf32_Rel = 8 /\ size Elf64_Rel = 16 /\
  size Elf32_Rela = 12 /\ size Elf64_Rela = 24 /\ size Elf32_Dyn = 8 /\ size Elf64_Dyn = 16 /\
  size Elf32_Nhdr = 12 /\ size Elf64_Nhdr = 12 /\ size Elf32_Verdef = 20 /\ size Elf64_Verdef = 20 /\
  size Elf32_Verdaux = 8 /\ size Elf64_Verdaux = 8.
Proof. vm_compute; repeat split. Qed.
