(** * SpecDisplay: what a message must mention.

    Key words for every error, taken from the documentation comments of the error variants
    (src/loader/elf/mod.rs:38-77, src/loader/bzimage/mod.rs:25-44, src/loader/pe/mod.rs:26-51, src/loader/mod.rs:51-74,
    src/configurator/mod.rs:36-55, x86_64/linux.rs:24-31, x86_64/pvh.rs:29-46, fdt.rs:15-20, src/cmdline/mod.rs:21-44): what was being
    done, to what, and for which kind of kernel or boot protocol. *)
From Verif Require Import Base Text Cmdline Loader BootParams.

(** [kw] occurs in [s]. *)
Definition mentions (s kw : text) : Prop := exists a b, s = a ++ kw ++ b.

Definition elf_words (e : elf_error) : list string :=
  match e with
  | Align => ["alignment"]
  | BigEndianElfOnLittle => ["big-endian"; "little-endian"]
  | InvalidElfMagicNumber => ["Invalid"; "magic number"]
  | InvalidProgramHeaderSize => ["Invalid"; "header size"]
  | InvalidProgramHeaderOffset => ["Invalid"; "header offset"]
  | InvalidProgramHeaderAddress => ["Invalid"; "Header Address"]
  | InvalidEntryAddress => ["Invalid"; "entry address"]
  | ElfOverflow => ["Overflow"]
  | ReadElfHeader => ["read"; "elf header"]
  | ReadKernelImage => ["read"; "kernel image"]
  | ReadProgramHeader => ["read"; "program header"]
  | SeekKernelStart => ["seek"; "kernel start"]
  | SeekElfStart => ["seek"; "elf start"]
  | SeekProgramHeader => ["seek"; "program header"]
  | SeekNoteHeader => ["seek"; "note header"]
  | ReadNoteHeader => ["read"; "note header"]
  | InvalidPvhNote => ["Invalid"; "PVH note"]
  end.
Definition bz_words (e : bz_error) : list string :=
  match e with
  | InvalidBzImage => ["Invalid bzImage"]
  | BzOverflow => ["Overflow"]
  | ReadBzImageHeader => ["read bzImage header"]
  | ReadBzImageCompressedKernel => ["read bzImage compressed kernel"]
  | SeekBzImageEnd => ["seek bzImage end"]
  | SeekBzImageHeader => ["seek bzImage header"]
  | SeekBzImageCompressedKernel => ["seek bzImage compressed kernel"]
  | BzUnderflow => ["Underflow"]
  end.
Definition pe_words (e : pe_error) : list string :=
  match e with
  | SeekImageEnd => ["seek Image end"]
  | SeekImageHeader => ["seek Image header"]
  | SeekDtbStart => ["seek DTB start"]
  | SeekDtbEnd => ["seek DTB end"]
  | DtbTooBig => ["device tree"; "too big"]
  | PeReadKernelImage => ["read kernel image"]
  | ReadImageHeader => ["read Image header"]
  | ReadDtbImage => ["read DTB image"]
  | InvalidImage => ["invalid Image"]
  | InvalidImageMagicNumber => ["invalid Image magic number"]
  | InvalidBaseAddrAlignment => ["base address not aligned"]
  end.
Definition loader_words (e : lerror) : list string :=
  match e with
  | LElf e => "ELF" :: elf_words e
  | LBz e => "bzImage" :: bz_words e
  | LPe e => "PE" :: pe_words e
  | InvalidCommandLine => ["invalid command line"]
  | CommandLineCopy => ["writing command line to guest memory"]
  | CommandLineOverflow => ["command line overflowed"]
  | InvalidKernelStartAddress => ["invalid kernel start address"]
  | MemoryOverflow => ["memory"; "not enough"]
  end.

Definition linux_words (e : linux_error) : list string :=
  match e with
  | ZeroPagePastRamEnd => ["zero page"; "past the end of guest memory"]
  | ZeroPageSetup => ["zero page"; "error writing"]
  end.
Definition pvh_words (e : pvh_error) : list string :=
  match e with
  | MemmapTableAddressMissing => ["address"; "memory map"; "wasn't passed"]
  | MemmapTableMissing => ["no memory map"]
  | MemmapTablePastRamEnd => ["memory map"; "past the end of guest memory"]
  | MemmapTableSetup => ["memory map"; "error writing"]
  | StartInfoPastRamEnd => ["hvm_start_info"; "past the end of guest memory"]
  | StartInfoSetup => ["hvm_start_info"; "error writing"]
  | ModulesAddressMissing => ["address"; "module"; "wasn't passed"]
  | ModulesSetup => ["module"; "error writing"]
  end.
Definition fdt_words (e : fdt_error) : list string :=
  match e with
  | FDTPastRamEnd => ["FDT"; "does not fit"]
  | WriteFDTToMemory => ["FDT"; "error writing"]
  end.
(** In the message itself, and in the message of the source. *)
Definition boot_words (e : berror) : list string :=
  match e with
  | BLinux _ => ["failed"; "Linux Boot protocol"]
  | BPvh _ => ["failed"; "by PVH"]
  | BFdt _ => ["failed"; "by FDT"]
  | MissingStartAddress => ["without its starting address"]
  | BOverflow => ["overflow"]
  | InvalidAddress => ["precedes the starting address"]
  end.
Definition source_words (e : berror) : option (list string) :=
  match e with
  | BLinux e => Some ("Linux Boot" :: linux_words e)
  | BPvh e => Some ("PVH Boot" :: pvh_words e)
  | BFdt e => Some ("Device Tree" :: fdt_words e)
  | _ => None
  end.
Definition cmdline_words (e : cerror) : list string :=
  match e with
  | NullTerminator => ["Null terminator"]
  | NoBootArgsInserted => ["only init args"]
  | InvalidCapacity => ["capacity"]
  | InvalidAscii => ["non-printable"]
  | HasSpace => ["contains a space"]
  | HasEquals => ["equals sign"]
  | MissingVal _ => ["Missing value for key"]
  | MmioSize => ["0-sized"; "MMIO"]
  | TooLarge => ["too long"]
  | NoQuoteSpace => ["contains spaces"; "quotes"]
  | InvalidQuote => ["Double quote"; "middle"]
  end.
