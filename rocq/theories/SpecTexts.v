(** * SpecTexts: the wording of every error, and the types of the fields that are structures, as in /repo/src.

    Tables written from the sources (the variants' names and the texts in the [Display] and [source] implementations),
    not from the model. *)
From Verif Require Import Base Text Cmdline Loader BootParams.
Local Open Scope string_scope.

(** Error, [{:?}], [{}], and [{}] of its [source()]. *)
Definition loader_texts : list (lerror * string * string * option string) :=
  [(LBz InvalidBzImage, "Bzimage(InvalidBzImage)", "Kernel Loader: failed to load bzImage kernel image: Kernel Loader: Invalid bzImage", Some "Kernel Loader: Invalid bzImage");
   (LBz BzOverflow, "Bzimage(Overflow)", "Kernel Loader: failed to load bzImage kernel image: Kernel Loader: Overflow occurred during an arithmetic operation", Some "Kernel Loader: Overflow occurred during an arithmetic operation");
   (LBz ReadBzImageHeader, "Bzimage(ReadBzImageHeader)", "Kernel Loader: failed to load bzImage kernel image: Kernel Loader: Unable to read bzImage header", Some "Kernel Loader: Unable to read bzImage header");
   (LBz ReadBzImageCompressedKernel, "Bzimage(ReadBzImageCompressedKernel)", "Kernel Loader: failed to load bzImage kernel image: Kernel Loader: Unable to read bzImage compressed kernel", Some "Kernel Loader: Unable to read bzImage compressed kernel");
   (LBz SeekBzImageEnd, "Bzimage(SeekBzImageEnd)", "Kernel Loader: failed to load bzImage kernel image: Kernel Loader: Unable to seek bzImage end", Some "Kernel Loader: Unable to seek bzImage end");
   (LBz SeekBzImageHeader, "Bzimage(SeekBzImageHeader)", "Kernel Loader: failed to load bzImage kernel image: Kernel Loader: Unable to seek bzImage header", Some "Kernel Loader: Unable to seek bzImage header");
   (LBz SeekBzImageCompressedKernel, "Bzimage(SeekBzImageCompressedKernel)", "Kernel Loader: failed to load bzImage kernel image: Kernel Loader: Unable to seek bzImage compressed kernel", Some "Kernel Loader: Unable to seek bzImage compressed kernel");
   (LBz BzUnderflow, "Bzimage(Underflow)", "Kernel Loader: failed to load bzImage kernel image: Kernel Loader: Underflow occurred during an arithmetic operation", Some "Kernel Loader: Underflow occurred during an arithmetic operation");
   (LElf Align, "Elf(Align)", "Kernel Loader: failed to load ELF kernel image: Kernel Loader: Invalid alignment", Some "Kernel Loader: Invalid alignment");
   (LElf BigEndianElfOnLittle, "Elf(BigEndianElfOnLittle)", "Kernel Loader: failed to load ELF kernel image: Kernel Loader: Trying to load big-endian binary on little-endian machine", Some "Kernel Loader: Trying to load big-endian binary on little-endian machine");
   (LElf InvalidElfMagicNumber, "Elf(InvalidElfMagicNumber)", "Kernel Loader: failed to load ELF kernel image: Kernel Loader: Invalid Elf magic number", Some "Kernel Loader: Invalid Elf magic number");
   (LElf InvalidProgramHeaderSize, "Elf(InvalidProgramHeaderSize)", "Kernel Loader: failed to load ELF kernel image: Kernel Loader: Invalid program header size", Some "Kernel Loader: Invalid program header size");
   (LElf InvalidProgramHeaderOffset, "Elf(InvalidProgramHeaderOffset)", "Kernel Loader: failed to load ELF kernel image: Kernel Loader: Invalid program header offset", Some "Kernel Loader: Invalid program header offset");
   (LElf InvalidProgramHeaderAddress, "Elf(InvalidProgramHeaderAddress)", "Kernel Loader: failed to load ELF kernel image: Kernel Loader: Invalid Program Header Address", Some "Kernel Loader: Invalid Program Header Address");
   (LElf InvalidEntryAddress, "Elf(InvalidEntryAddress)", "Kernel Loader: failed to load ELF kernel image: Kernel Loader: Invalid entry address", Some "Kernel Loader: Invalid entry address");
   (LElf ElfOverflow, "Elf(Overflow)", "Kernel Loader: failed to load ELF kernel image: Kernel Loader: Overflow occurred during an arithmetic operation", Some "Kernel Loader: Overflow occurred during an arithmetic operation");
   (LElf ReadElfHeader, "Elf(ReadElfHeader)", "Kernel Loader: failed to load ELF kernel image: Kernel Loader: Unable to read elf header", Some "Kernel Loader: Unable to read elf header");
   (LElf ReadKernelImage, "Elf(ReadKernelImage)", "Kernel Loader: failed to load ELF kernel image: Kernel Loader: Unable to read kernel image", Some "Kernel Loader: Unable to read kernel image");
   (LElf ReadProgramHeader, "Elf(ReadProgramHeader)", "Kernel Loader: failed to load ELF kernel image: Kernel Loader: Unable to read program header", Some "Kernel Loader: Unable to read program header");
   (LElf SeekKernelStart, "Elf(SeekKernelStart)", "Kernel Loader: failed to load ELF kernel image: Kernel Loader: Unable to seek to kernel start", Some "Kernel Loader: Unable to seek to kernel start");
   (LElf SeekElfStart, "Elf(SeekElfStart)", "Kernel Loader: failed to load ELF kernel image: Kernel Loader: Unable to seek to elf start", Some "Kernel Loader: Unable to seek to elf start");
   (LElf SeekProgramHeader, "Elf(SeekProgramHeader)", "Kernel Loader: failed to load ELF kernel image: Kernel Loader: Unable to seek to program header", Some "Kernel Loader: Unable to seek to program header");
   (LElf SeekNoteHeader, "Elf(SeekNoteHeader)", "Kernel Loader: failed to load ELF kernel image: Kernel Loader: Unable to seek to note header", Some "Kernel Loader: Unable to seek to note header");
   (LElf ReadNoteHeader, "Elf(ReadNoteHeader)", "Kernel Loader: failed to load ELF kernel image: Kernel Loader: Unable to read note header", Some "Kernel Loader: Unable to read note header");
   (LElf InvalidPvhNote, "Elf(InvalidPvhNote)", "Kernel Loader: failed to load ELF kernel image: Kernel Loader: Invalid PVH note header", Some "Kernel Loader: Invalid PVH note header");
   (LPe SeekImageEnd, "Pe(SeekImageEnd)", "Kernel Loader: failed to load PE kernel image: PE Kernel Loader: unable to seek Image end", Some "PE Kernel Loader: unable to seek Image end");
   (LPe SeekImageHeader, "Pe(SeekImageHeader)", "Kernel Loader: failed to load PE kernel image: PE Kernel Loader: unable to seek Image header", Some "PE Kernel Loader: unable to seek Image header");
   (LPe SeekDtbStart, "Pe(SeekDtbStart)", "Kernel Loader: failed to load PE kernel image: PE Kernel Loader: unable to seek DTB start", Some "PE Kernel Loader: unable to seek DTB start");
   (LPe SeekDtbEnd, "Pe(SeekDtbEnd)", "Kernel Loader: failed to load PE kernel image: PE Kernel Loader: unable to seek DTB end", Some "PE Kernel Loader: unable to seek DTB end");
   (LPe DtbTooBig, "Pe(DtbTooBig)", "Kernel Loader: failed to load PE kernel image: PE Kernel Loader: device tree image too big", Some "PE Kernel Loader: device tree image too big");
   (LPe PeReadKernelImage, "Pe(ReadKernelImage)", "Kernel Loader: failed to load PE kernel image: PE Kernel Loader: unable to read kernel image", Some "PE Kernel Loader: unable to read kernel image");
   (LPe ReadImageHeader, "Pe(ReadImageHeader)", "Kernel Loader: failed to load PE kernel image: PE Kernel Loader: unable to read Image header", Some "PE Kernel Loader: unable to read Image header");
   (LPe ReadDtbImage, "Pe(ReadDtbImage)", "Kernel Loader: failed to load PE kernel image: PE Kernel Loader: unable to read DTB image", Some "PE Kernel Loader: unable to read DTB image");
   (LPe InvalidImage, "Pe(InvalidImage)", "Kernel Loader: failed to load PE kernel image: PE Kernel Loader: invalid Image", Some "PE Kernel Loader: invalid Image");
   (LPe InvalidImageMagicNumber, "Pe(InvalidImageMagicNumber)", "Kernel Loader: failed to load PE kernel image: PE Kernel Loader: invalid Image magic number", Some "PE Kernel Loader: invalid Image magic number");
   (LPe InvalidBaseAddrAlignment, "Pe(InvalidBaseAddrAlignment)", "Kernel Loader: failed to load PE kernel image: PE Kernel Loader: base address not aligned to 2 MB", Some "PE Kernel Loader: base address not aligned to 2 MB");
   (InvalidCommandLine, "InvalidCommandLine", "Kernel Loader: invalid command line provided", None);
   (CommandLineCopy, "CommandLineCopy", "Kernel Loader: failed writing command line to guest memory", None);
   (CommandLineOverflow, "CommandLineOverflow", "Kernel Loader: command line overflowed guest memory", None);
   (InvalidKernelStartAddress, "InvalidKernelStartAddress", "Kernel Loader: invalid kernel start address", None);
   (MemoryOverflow, "MemoryOverflow", "Kernel Loader: memory to load kernel image is not enough", None)].

(** The same for boot configurator errors. *)
Definition boot_texts : list (berror * string * string * option string) :=
  [(BLinux ZeroPagePastRamEnd, "Linux(ZeroPagePastRamEnd)", "Boot Configurator: failed to configure boot parameter by Linux Boot protocol.", Some "Linux Boot Configurator: the zero page extends past the end of guest memory.");
   (BLinux ZeroPageSetup, "Linux(ZeroPageSetup)", "Boot Configurator: failed to configure boot parameter by Linux Boot protocol.", Some "Linux Boot Configurator: error writing to the zero page of guest memory.");
   (BPvh MemmapTableAddressMissing, "Pvh(MemmapTableAddressMissing)", "Boot Configurator: failed to configure boot parameter by PVH.", Some "PVH Boot Configurator: the starting address for the memory map wasn't passed to the boot configurator.");
   (BPvh MemmapTableMissing, "Pvh(MemmapTableMissing)", "Boot Configurator: failed to configure boot parameter by PVH.", Some "PVH Boot Configurator: no memory map was passed to the boot configurator.");
   (BPvh MemmapTablePastRamEnd, "Pvh(MemmapTablePastRamEnd)", "Boot Configurator: failed to configure boot parameter by PVH.", Some "PVH Boot Configurator: the memory map table extends past the end of guest memory.");
   (BPvh MemmapTableSetup, "Pvh(MemmapTableSetup)", "Boot Configurator: failed to configure boot parameter by PVH.", Some "PVH Boot Configurator: error writing memory map table to guest memory.");
   (BPvh StartInfoPastRamEnd, "Pvh(StartInfoPastRamEnd)", "Boot Configurator: failed to configure boot parameter by PVH.", Some "PVH Boot Configurator: the hvm_start_info structure extends past the end of guest memory.");
   (BPvh StartInfoSetup, "Pvh(StartInfoSetup)", "Boot Configurator: failed to configure boot parameter by PVH.", Some "PVH Boot Configurator: error writing hvm_start_info to guest memory.");
   (BPvh ModulesAddressMissing, "Pvh(ModulesAddressMissing)", "Boot Configurator: failed to configure boot parameter by PVH.", Some "PVH Boot Configurator: the starting address for the modules descriptions wasn't passed to the boot configurator.");
   (BPvh ModulesSetup, "Pvh(ModulesSetup)", "Boot Configurator: failed to configure boot parameter by PVH.", Some "PVH Boot Configurator: error writing module descriptions to guest memory.");
   (BFdt FDTPastRamEnd, "Fdt(FDTPastRamEnd)", "Boot Configurator: failed to configure boot parameter by FDT.", Some "Device Tree Boot Configurator: FDT does not fit in guest memory.");
   (BFdt WriteFDTToMemory, "Fdt(WriteFDTToMemory)", "Boot Configurator: failed to configure boot parameter by FDT.", Some "Device Tree Boot Configurator: error writing FDT in guest memory.");
   (MissingStartAddress, "MissingStartAddress", "Boot Configurator: boot parameter was specified without its starting address in guest memory.", None);
   (BOverflow, "Overflow", "Boot Configurator: boot parameter address overflows.", None);
   (InvalidAddress, "InvalidAddress", "Boot Configurator: boot parameter address precedes the starting address.", None)].

(** Command line errors but [MissingVal]: error, [{:?}], [{}]. *)
Definition cmdline_texts : list (cerror * string * string) :=
  [(NullTerminator, "NullTerminator", "Null terminator detected in the command line structure.");
   (NoBootArgsInserted, "NoBootArgsInserted", "Cmdline cannot contain only init args.");
   (InvalidCapacity, "InvalidCapacity", "Invalid cmdline capacity provided.");
   (InvalidAscii, "InvalidAscii", "String contains a non-printable ASCII character.");
   (HasSpace, "HasSpace", "String contains a space.");
   (HasEquals, "HasEquals", "String contains an equals sign.");
   (MmioSize, "MmioSize", "0-sized virtio MMIO device passed to the kernel command line builder.");
   (TooLarge, "TooLarge", "Inserting string would make command line too long.");
   (NoQuoteSpace, "NoQuoteSpace", "Value that contains spaces need to be surrounded by quotes");
   (InvalidQuote, "InvalidQuote", "Double quote can not be in the middle of the value")].

(** Fields that are structures or arrays of structures, with the name of the structure type. *)
Definition structure_fields : list (string * string) :=
  [("apm_bios_info", "apm_bios_info");
   ("e820_table", "boot_e820_entry");
   ("eddbuf", "edd_info");
   ("edid_info", "edid_info");
   ("efi_info", "efi_info");
   ("hdr", "setup_header");
   ("ist_info", "ist_info");
   ("olpc_ofw_header", "olpc_ofw_header");
   ("params", "edd_device_params");
   ("screen_info", "screen_info");
   ("sys_desc_table", "sys_desc_table")].
