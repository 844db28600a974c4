(** * Display: the messages of the error types and of [PvhBootCapability]
    ([impl fmt::Display]) and the error chains ([std::error::Error::source]). *)
From Verif Require Import Base Text Cmdline Loader BootParams.

(** src/cmdline/mod.rs:46-70.  ([Error::source] is the default [None], line 72.) *)
Definition cerror_display (e : cerror) : text :=
  match e with
  | NullTerminator => txt "Null terminator detected in the command line structure."
  | NoBootArgsInserted => txt "Cmdline cannot contain only init args."
  | InvalidCapacity => txt "Invalid cmdline capacity provided."
  | InvalidAscii => txt "String contains a non-printable ASCII character."
  | HasSpace => txt "String contains a space."
  | HasEquals => txt "String contains an equals sign."
  | MissingVal k => txt "Missing value for key " ++ k ++ txt "."
  | MmioSize => txt "0-sized virtio MMIO device passed to the kernel command line builder."
  | TooLarge => txt "Inserting string would make command line too long."
  | NoQuoteSpace => txt "Value that contains spaces need to be surrounded by quotes"
  | InvalidQuote => txt "Double quote can not be in the middle of the value"
  end.

(** src/loader/elf/mod.rs:79-105. *)
Definition elf_display (e : elf_error) : text :=
  txt "Kernel Loader: " ++
  match e with
  | Align => txt "Invalid alignment"
  | BigEndianElfOnLittle => txt "Trying to load big-endian binary on little-endian machine"
  | InvalidElfMagicNumber => txt "Invalid Elf magic number"
  | InvalidProgramHeaderSize => txt "Invalid program header size"
  | InvalidProgramHeaderOffset => txt "Invalid program header offset"
  | InvalidProgramHeaderAddress => txt "Invalid Program Header Address"
  | InvalidEntryAddress => txt "Invalid entry address"
  | ElfOverflow => txt "Overflow occurred during an arithmetic operation"
  | ReadElfHeader => txt "Unable to read elf header"
  | ReadKernelImage => txt "Unable to read kernel image"
  | ReadProgramHeader => txt "Unable to read program header"
  | SeekKernelStart => txt "Unable to seek to kernel start"
  | SeekElfStart => txt "Unable to seek to elf start"
  | SeekProgramHeader => txt "Unable to seek to program header"
  | SeekNoteHeader => txt "Unable to seek to note header"
  | ReadNoteHeader => txt "Unable to read note header"
  | InvalidPvhNote => txt "Invalid PVH note header"
  end.

(** src/loader/bzimage/mod.rs:46-61. *)
Definition bz_display (e : bz_error) : text :=
  txt "Kernel Loader: " ++
  match e with
  | InvalidBzImage => txt "Invalid bzImage"
  | BzOverflow => txt "Overflow occurred during an arithmetic operation"
  | ReadBzImageHeader => txt "Unable to read bzImage header"
  | ReadBzImageCompressedKernel => txt "Unable to read bzImage compressed kernel"
  | SeekBzImageEnd => txt "Unable to seek bzImage end"
  | SeekBzImageHeader => txt "Unable to seek bzImage header"
  | SeekBzImageCompressedKernel => txt "Unable to seek bzImage compressed kernel"
  | BzUnderflow => txt "Underflow occurred during an arithmetic operation"
  end.

(** src/loader/pe/mod.rs:53-71. *)
Definition pe_display (e : pe_error) : text :=
  txt "PE Kernel Loader: " ++
  match e with
  | SeekImageEnd => txt "unable to seek Image end"
  | SeekImageHeader => txt "unable to seek Image header"
  | ReadImageHeader => txt "unable to read Image header"
  | ReadDtbImage => txt "unable to read DTB image"
  | SeekDtbStart => txt "unable to seek DTB start"
  | SeekDtbEnd => txt "unable to seek DTB end"
  | InvalidImage => txt "invalid Image"
  | InvalidImageMagicNumber => txt "invalid Image magic number"
  | DtbTooBig => txt "device tree image too big"
  | PeReadKernelImage => txt "unable to read kernel image"
  | InvalidBaseAddrAlignment => txt "base address not aligned to 2 MB"
  end.

(** src/loader/mod.rs:81-99. *)
Definition lerror_display (e : lerror) : text :=
  txt "Kernel Loader: " ++
  match e with
  | LBz e => txt "failed to load bzImage kernel image: " ++ bz_display e
  | LElf e => txt "failed to load ELF kernel image: " ++ elf_display e
  | LPe e => txt "failed to load PE kernel image: " ++ pe_display e
  | InvalidCommandLine => txt "invalid command line provided"
  | CommandLineCopy => txt "failed writing command line to guest memory"
  | CommandLineOverflow => txt "command line overflowed guest memory"
  | InvalidKernelStartAddress => txt "invalid kernel start address"
  | MemoryOverflow => txt "memory to load kernel image is not enough"
  end.

(** src/loader/mod.rs:101-118: the message of [source()]; the inner errors have no source
    themselves (elf 107, bzimage 63, pe 73). *)
Definition lerror_source (e : lerror) : option text :=
  match e with
  | LBz e => Some (bz_display e)
  | LElf e => Some (elf_display e)
  | LPe e => Some (pe_display e)
  | InvalidCommandLine | CommandLineCopy | CommandLineOverflow
  | InvalidKernelStartAddress | MemoryOverflow => None
  end.

(** src/configurator/x86_64/linux.rs:33-43. *)
Definition linux_display (e : linux_error) : text :=
  txt "Linux Boot Configurator: " ++
  match e with
  | ZeroPagePastRamEnd => txt "the zero page extends past the end of guest memory."
  | ZeroPageSetup => txt "error writing to the zero page of guest memory."
  end.

(** src/configurator/x86_64/pvh.rs:48-68. *)
Definition pvh_display (e : pvh_error) : text :=
  txt "PVH Boot Configurator: " ++
  match e with
  | MemmapTableAddressMissing =>
      txt "the starting address for the memory map wasn't passed to the boot configurator."
  | MemmapTableMissing => txt "no memory map was passed to the boot configurator."
  | MemmapTablePastRamEnd => txt "the memory map table extends past the end of guest memory."
  | MemmapTableSetup => txt "error writing memory map table to guest memory."
  | StartInfoPastRamEnd =>
      txt "the hvm_start_info structure extends past the end of guest memory."
  | StartInfoSetup => txt "error writing hvm_start_info to guest memory."
  | ModulesAddressMissing =>
      txt "the starting address for the modules descriptions wasn't passed to the boot configurator."
  | ModulesSetup => txt "error writing module descriptions to guest memory."
  end.

(** src/configurator/fdt.rs:22-32. *)
Definition fdt_display (e : fdt_error) : text :=
  txt "Device Tree Boot Configurator: " ++
  match e with
  | FDTPastRamEnd => txt "FDT does not fit in guest memory."
  | WriteFDTToMemory => txt "error writing FDT in guest memory."
  end.

(** src/configurator/mod.rs:57-77. *)
Definition berror_display (e : berror) : text :=
  txt "Boot Configurator: " ++
  match e with
  | BLinux _ => txt "failed to configure boot parameter by Linux Boot protocol."
  | BPvh _ => txt "failed to configure boot parameter by PVH."
  | BFdt _ => txt "failed to configure boot parameter by FDT."
  | MissingStartAddress =>
      txt "boot parameter was specified without its starting address in guest memory."
  | BOverflow => txt "boot parameter address overflows."
  | InvalidAddress => txt "boot parameter address precedes the starting address."
  end.

(** src/configurator/mod.rs:79-95: the message of [source()]. *)
Definition berror_source (e : berror) : option text :=
  match e with
  | BLinux e => Some (linux_display e)
  | BPvh e => Some (pvh_display e)
  | BFdt e => Some (fdt_display e)
  | MissingStartAddress | BOverflow | InvalidAddress => None
  end.

(** src/loader/elf/mod.rs:122-135 ([{:#x}]: lower-case hexadecimal with the prefix "0x"). *)
Definition pvh_cap_display (c : pvh_cap) : text :=
  match c with
  | PvhEntryPresent a => txt "PVH entry point present at guest address: " ++ txt "0x" ++ fmt_hex a
  | PvhEntryNotPresent => txt "PVH entry point not present"
  | PvhEntryIgnored => txt "PVH entry point ignored"
  end.
