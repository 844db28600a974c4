(** * DebugText: what [{:?}] prints ([#\[derive(Debug)\]]): errors, results, structures, [Cmdline].

    This is what [unwrap], [expect], [assert_eq!] and most logging code show. *)
From Verif Require Import Base Layout Text Cmdline Loader BootParams.
Local Open Scope list_scope.

(** std: [impl Debug for str].  Which characters beyond ASCII are printed as they are depends on Unicode tables of
    the standard library, [pr]. *)
(** std, under the derived [Debug] of src/cmdline/mod.rs:20, 145. *)
Definition escape_unicode (c : char) : text := [92; 117; 123] ++ fmt_hex c ++ [125].
(** std, under the derived [Debug] of src/cmdline/mod.rs:20, 145. *)
Definition escape_char (pr : char -> bool) (c : char) : text :=
  if c =? 0 then [92; 48]
  else if c =? 9 then [92; 116]
  else if c =? 10 then [92; 110]
  else if c =? 13 then [92; 114]
  else if c =? 34 then [92; 34]
  else if c =? 92 then [92; 92]
  else if c <? 32 then escape_unicode c
  else if c <? 127 then [c]
  else if c =? 127 then escape_unicode c
  else if pr c then [c] else escape_unicode c.
(** std, under the derived [Debug] of src/cmdline/mod.rs:20, 145. *)
Definition debug_str (pr : char -> bool) (s : text) : text := [34] ++ flat_map (escape_char pr) s ++ [34].

(** src/cmdline/mod.rs:20-44. *)
Definition debug_cerror (pr : char -> bool) (e : cerror) : text :=
  match e with
  | NullTerminator => txt "NullTerminator"
  | NoBootArgsInserted => txt "NoBootArgsInserted"
  | InvalidCapacity => txt "InvalidCapacity"
  | InvalidAscii => txt "InvalidAscii"
  | HasSpace => txt "HasSpace"
  | HasEquals => txt "HasEquals"
  | MissingVal k => txt "MissingVal(" ++ debug_str pr k ++ txt ")"
  | MmioSize => txt "MmioSize"
  | TooLarge => txt "TooLarge"
  | NoQuoteSpace => txt "NoQuoteSpace"
  | InvalidQuote => txt "InvalidQuote"
  end.

(** src/cmdline/mod.rs:145-150. *)
Definition debug_cmdline (pr : char -> bool) (c : cmdline) : text :=
  txt "Cmdline { boot_args: " ++ debug_str pr (boot_args c) ++ txt ", init_args: " ++ debug_str pr (init_args c) ++
  txt ", capacity: " ++ fmt_dec (capacity c) ++ txt " }".

(** src/loader/elf/mod.rs:40-77. *)
Definition debug_elf_error (e : elf_error) : text :=
  match e with
  | Align => txt "Align"
  | BigEndianElfOnLittle => txt "BigEndianElfOnLittle"
  | InvalidElfMagicNumber => txt "InvalidElfMagicNumber"
  | InvalidProgramHeaderSize => txt "InvalidProgramHeaderSize"
  | InvalidProgramHeaderOffset => txt "InvalidProgramHeaderOffset"
  | InvalidProgramHeaderAddress => txt "InvalidProgramHeaderAddress"
  | InvalidEntryAddress => txt "InvalidEntryAddress"
  | ElfOverflow => txt "Overflow"
  | ReadElfHeader => txt "ReadElfHeader"
  | ReadKernelImage => txt "ReadKernelImage"
  | ReadProgramHeader => txt "ReadProgramHeader"
  | SeekKernelStart => txt "SeekKernelStart"
  | SeekElfStart => txt "SeekElfStart"
  | SeekProgramHeader => txt "SeekProgramHeader"
  | SeekNoteHeader => txt "SeekNoteHeader"
  | ReadNoteHeader => txt "ReadNoteHeader"
  | InvalidPvhNote => txt "InvalidPvhNote"
  end.
(** src/loader/bzimage/mod.rs:25-44. *)
Definition debug_bz_error (e : bz_error) : text :=
  match e with
  | InvalidBzImage => txt "InvalidBzImage"
  | BzOverflow => txt "Overflow"
  | ReadBzImageHeader => txt "ReadBzImageHeader"
  | ReadBzImageCompressedKernel => txt "ReadBzImageCompressedKernel"
  | SeekBzImageEnd => txt "SeekBzImageEnd"
  | SeekBzImageHeader => txt "SeekBzImageHeader"
  | SeekBzImageCompressedKernel => txt "SeekBzImageCompressedKernel"
  | BzUnderflow => txt "Underflow"
  end.
(** src/loader/pe/mod.rs:26-51. *)
Definition debug_pe_error (e : pe_error) : text :=
  match e with
  | SeekImageEnd => txt "SeekImageEnd"
  | SeekImageHeader => txt "SeekImageHeader"
  | SeekDtbStart => txt "SeekDtbStart"
  | SeekDtbEnd => txt "SeekDtbEnd"
  | DtbTooBig => txt "DtbTooBig"
  | PeReadKernelImage => txt "ReadKernelImage"
  | ReadImageHeader => txt "ReadImageHeader"
  | ReadDtbImage => txt "ReadDtbImage"
  | InvalidImage => txt "InvalidImage"
  | InvalidImageMagicNumber => txt "InvalidImageMagicNumber"
  | InvalidBaseAddrAlignment => txt "InvalidBaseAddrAlignment"
  end.
(** src/loader/mod.rs:49-74. *)
Definition debug_lerror (e : lerror) : text :=
  match e with
  | LBz e => txt "Bzimage(" ++ debug_bz_error e ++ txt ")"
  | LElf e => txt "Elf(" ++ debug_elf_error e ++ txt ")"
  | LPe e => txt "Pe(" ++ debug_pe_error e ++ txt ")"
  | InvalidCommandLine => txt "InvalidCommandLine"
  | CommandLineCopy => txt "CommandLineCopy"
  | CommandLineOverflow => txt "CommandLineOverflow"
  | InvalidKernelStartAddress => txt "InvalidKernelStartAddress"
  | MemoryOverflow => txt "MemoryOverflow"
  end.
(** src/configurator/x86_64/linux.rs:25-31, x86_64/pvh.rs:28-46, fdt.rs:14-20, mod.rs:37-55. *)
Definition debug_berror (e : berror) : text :=
  match e with
  | BLinux ZeroPagePastRamEnd => txt "Linux(ZeroPagePastRamEnd)"
  | BLinux ZeroPageSetup => txt "Linux(ZeroPageSetup)"
  | BPvh MemmapTableAddressMissing => txt "Pvh(MemmapTableAddressMissing)"
  | BPvh MemmapTableMissing => txt "Pvh(MemmapTableMissing)"
  | BPvh MemmapTablePastRamEnd => txt "Pvh(MemmapTablePastRamEnd)"
  | BPvh MemmapTableSetup => txt "Pvh(MemmapTableSetup)"
  | BPvh StartInfoPastRamEnd => txt "Pvh(StartInfoPastRamEnd)"
  | BPvh StartInfoSetup => txt "Pvh(StartInfoSetup)"
  | BPvh ModulesAddressMissing => txt "Pvh(ModulesAddressMissing)"
  | BPvh ModulesSetup => txt "Pvh(ModulesSetup)"
  | BFdt FDTPastRamEnd => txt "Fdt(FDTPastRamEnd)"
  | BFdt WriteFDTToMemory => txt "Fdt(WriteFDTToMemory)"
  | MissingStartAddress => txt "MissingStartAddress"
  | BOverflow => txt "Overflow"
  | InvalidAddress => txt "InvalidAddress"
  end.

(** vm-memory: [#\[derive(Debug)\] struct GuestAddress(pub u64)]; src/loader/elf/mod.rs:109-120. *)
Definition debug_address (a : N) : text := txt "GuestAddress(" ++ fmt_dec a ++ txt ")".
(** src/loader/elf/mod.rs:109-120. *)
Definition debug_pvh_cap (c : pvh_cap) : text :=
  match c with
  | PvhEntryPresent a => txt "PvhEntryPresent(" ++ debug_address a ++ txt ")"
  | PvhEntryNotPresent => txt "PvhEntryNotPresent"
  | PvhEntryIgnored => txt "PvhEntryIgnored"
  end.

(** Structures of unsigned integers, arrays and structures (src/loader_gen/x86_64/bootparam.rs:107-352, start_info.rs:21-56,
    elf.rs, src/loader/pe/mod.rs:77-122): [Name { field: value, ... }], [\[value, ...\]].  [nm] is the name of the type if it is
    a structure, [names f] that of the structure type of field [f] (src/loader_gen/x86_64/bootparam.rs:226-352).
    Not covered: Elf32/64_Rela and the Dyn unions (signed fields, no derived Debug). *)
Fixpoint debug_ty (names : string -> text) (nm : text) (t : ty) (bs : bytes) {struct t} : text :=
  match t with
  | Arr n t' =>
      txt "[" ++ join (txt ", ") (map (fun i => debug_ty names nm t' (slice bs (i * size t') (size t')))
                                      (map N.of_nat (seq 0 (N.to_nat n)))) ++ txt "]"
  | Struct p fs =>
      nm ++ txt " { " ++
      join (txt ", ")
        ((fix go (o : N) (fs : list (string * ty)) : list text :=
            match fs with
            | [] => []
            | (f, t') :: r =>
                (txt f ++ txt ": " ++ debug_ty names (names f) t' (slice bs (place p o t') (size t'))) ::
                go (place p o t' + size t') r
            end) 0 fs) ++ txt " }"
  | _ => fmt_dec (le_dec bs)
  end.
(** src/loader_gen/x86_64/bootparam.rs:107-352, start_info.rs:15-56. *)
Definition field_type_name (f : string) : text :=
  if String.eqb f "hdr" then txt "setup_header"
  else if String.eqb f "e820_table" then txt "boot_e820_entry"
  else if String.eqb f "eddbuf" then txt "edd_info"
  else if String.eqb f "params" then txt "edd_device_params"
  else txt f.   (* screen_info, apm_bios_info, ist_info, sys_desc_table, olpc_ofw_header, edid_info, efi_info *)

(** src/loader/mod.rs:146-162. *)
Definition debug_result (r : load_result) : text :=
  txt "KernelLoaderResult { kernel_load: " ++ debug_address (kernel_load r) ++ txt ", kernel_end: " ++ fmt_dec (kernel_end r) ++
  txt ", setup_header: " ++
  match result_header r with
  | Some h => txt "Some(" ++ debug_ty field_type_name (txt "setup_header") setup_header h ++ txt ")"
  | None => txt "None"
  end ++ txt ", pvh_boot_cap: " ++ debug_pvh_cap (pvh_boot_cap r) ++ txt " }".
