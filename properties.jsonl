{"id": "C01", "title": "Command line never exceeds its capacity", "statement": "Whatever the constructor (Cmdline::new or Cmdline::try_from) and whatever sequence of insert, insert_multiple, insert_str, insert_init_args and add_virtio_mmio_device calls follows, successful or not, the byte string returned by as_cstring (terminating NUL included) is never longer than the capacity given at construction.", "quantifier": "every capacity, every constructor argument, every finite history of builder calls with arbitrary Unicode arguments", "why_tests_cant": "The bound must survive every interleaving of boot-arg and init-arg insertions at every fill level; tests hit a few lengths.", "anchors": ["src/cmdline/mod.rs: Cmdline::new, try_from, insert_str, insert_init_args, get_null_terminated_representation_size, as_cstring"]}
{"id": "C02", "title": "Rejected command line operations leave the builder untouched", "statement": "If any builder call returns an error, the builder is exactly as it was before the call: same serialisation and same behaviour of every later call.", "quantifier": "every builder state and every argument", "why_tests_cant": "Error paths exist for every argument and every fill level.", "anchors": ["src/cmdline/mod.rs: insert, insert_multiple, insert_str, insert_init_args, add_virtio_mmio_device"]}
{"id": "C03", "title": "The command line is the ordered concatenation of what was accepted", "statement": "After any history, as_cstring yields exactly the accepted boot arguments, trimmed, in call order, separated by one space, followed (if any non-empty init argument was accepted) by ' -- ' and the accepted init arguments in call order separated by one space; blank arguments accepted before any other text leave no trace.", "quantifier": "every history of builder calls starting from Cmdline::new", "why_tests_cant": "Ordering and separation must hold for all interleavings of the two argument lists.", "anchors": ["src/cmdline/mod.rs: insert_str, insert_init_args, as_cstring"]}
{"id": "C04", "title": "insert_str / insert_init_args accept exactly the printable text that fits", "statement": "insert_str(s) (resp. insert_init_args(s)) returns Ok iff s without its leading and trailing Unicode white space consists only of characters ' '..'~' and the serialisation including separators and NUL would fit in the capacity; it returns InvalidAscii iff a non-printable character remains, and TooLarge otherwise.", "quantifier": "every builder state reachable by any history, every Unicode string", "why_tests_cant": "The boundary depends on the full history; off-by-one errors show only at exact fill levels.", "anchors": ["src/cmdline/mod.rs: insert_str, insert_init_args, valid_str, valid_char"]}
{"id": "C05", "title": "Key/value insertion validates and appends exactly key=value", "statement": "insert(k,v) is accepted iff k is printable without space or '=', v is printable, has no double quote strictly inside it, has no space unless it both starts and ends with a double quote, and 'k=v' fits; on success precisely the text k=v is appended as one new boot argument; otherwise the documented error is returned in the order key errors, value errors, size.", "quantifier": "every builder state, every pair of Unicode strings", "why_tests_cant": "The set of valid values is infinite and error precedence depends on combinations.", "anchors": ["src/cmdline/mod.rs: insert, valid_key, valid_value, is_quoted, contains_double_quotes"]}
{"id": "C06", "title": "insert_multiple appends key=v1,...,vn or reports the first problem", "statement": "insert_multiple(k,vs) checks the key, then that vs is non-empty (MissingVal(k)), then each value in order, then the size; on success it appends exactly k=v1,...,vn, which for a single value is the same as insert(k,v1).", "quantifier": "every builder state, every key, every list of values of any length", "why_tests_cant": "Lists of any length.", "anchors": ["src/cmdline/mod.rs: insert_multiple"]}
{"id": "C07", "title": "Builder output is printable ASCII", "statement": "A Cmdline made with Cmdline::new and modified only by successful or failed builder calls serialises to bytes in 0x20..0x7e followed by one NUL; as_cstring never fails with NullTerminator.", "quantifier": "every history of builder calls with arbitrary Unicode arguments", "why_tests_cant": "Every character of Unicode and every entry point must be excluded.", "anchors": ["src/cmdline/mod.rs: valid_str, valid_key, valid_value, as_cstring"]}
{"id": "C08", "title": "The serialised command line is NUL-terminated exactly once", "statement": "Whatever the constructor and history, if as_cstring (or Vec::<u8>::try_from) succeeds the bytes contain exactly one NUL, at the last position.", "quantifier": "every Cmdline value reachable from new or try_from", "why_tests_cant": "Must hold for raw strings given to try_from, which are not validated.", "anchors": ["src/cmdline/mod.rs: as_cstring, TryFrom<Cmdline> for Vec<u8>, try_from"]}
{"id": "C09", "title": "as_cstring fails only for init-only or NUL-bearing command lines", "statement": "as_cstring returns NoBootArgsInserted iff the boot arguments are empty and the init arguments are not; it returns NullTerminator iff a NUL character was brought in through try_from; in every other case it succeeds.", "quantifier": "every Cmdline value", "why_tests_cant": "Case analysis over all histories.", "anchors": ["src/cmdline/mod.rs: as_cstring"]}
{"id": "C10", "title": "try_from splits at the first unquoted separator", "statement": "Cmdline::try_from(s, cap) takes as boot arguments the trimmed text before the first occurrence of ' -- ' preceded by an even number of double quotes, and as init arguments the trimmed text after it; if there is no such occurrence everything is boot arguments.", "quantifier": "every Unicode string and capacity", "why_tests_cant": "Quote parity and overlapping separators give unboundedly many shapes.", "anchors": ["src/cmdline/mod.rs: try_from, check_outside_double_quotes"]}
{"id": "C11", "title": "Capacity checks of new and try_from are exact", "statement": "new(cap) fails (InvalidCapacity) iff cap is 0 and otherwise gives an empty command line of that capacity; try_from(s, cap) fails iff cap is 0 or the trimmed parts plus separator plus NUL exceed cap, always with InvalidCapacity; no other error arises.", "quantifier": "every Unicode string and capacity", "why_tests_cant": "Exact boundary for all lengths.", "anchors": ["src/cmdline/mod.rs: new", "src/cmdline/mod.rs: try_from"]}
{"id": "C12", "title": "Documented try_from format round-trips", "statement": "For boot and init texts in the documented format (trimmed, non-empty, '--' only inside double quotes in the boot text, balanced quotes), parsing 'boot -- init' and serialising again gives back 'boot -- init', with exactly those two parts.", "quantifier": "all pairs of texts in the documented format and all sufficient capacities", "why_tests_cant": "Infinite family of inputs.", "anchors": ["src/cmdline/mod.rs: try_from, as_cstring"]}
{"id": "C13", "title": "Serialise-then-parse is stable for text whose only white space is the space character", "statement": "If s was accepted by try_from, its only white space characters are spaces, and it serialises, then parsing the serialisation with the same capacity succeeds and gives the same boot and init parts and the same serialisation. With other white space (tab, newline, U+00A0...) next to the separator this is false: a concrete text is accepted, serialised, and re-parsed into different parts.", "quantifier": "all raw strings", "why_tests_cant": "The failure needs exotic white space next to a separator.", "anchors": ["src/cmdline/mod.rs: try_from, as_cstring"]}
{"id": "C14", "title": "virtio MMIO device strings decode to the device that was added", "statement": "On success add_virtio_mmio_device(size, base, irq, id) appends one boot argument 'virtio_mmio.device=' followed by text that the kernel's grammar <size>[KMG]@0x<base>:<irq>[:<id>] decodes to exactly (size, base, irq, id); so different devices give different text.", "quantifier": "all size > 0, all 64-bit addresses, all 32-bit irq and optional id", "why_tests_cant": "2^64 sizes and addresses; suffix arithmetic is only sampled by tests.", "anchors": ["src/cmdline/mod.rs: add_virtio_mmio_device, guestusize_to_str"]}
{"id": "C15", "title": "virtio MMIO device insertion fails only for zero size or lack of room", "statement": "add_virtio_mmio_device returns MmioSize iff size is 0, otherwise TooLarge iff the text does not fit, otherwise Ok; the size is written with the largest of G, M, K that divides it.", "quantifier": "all builder states and device arguments", "why_tests_cant": "All sizes.", "anchors": ["src/cmdline/mod.rs: add_virtio_mmio_device, guestusize_to_str"]}
{"id": "C16", "title": "Command line arithmetic never overflows", "statement": "No builder call on any reachable Cmdline overflows an integer or panics, for every capacity up to usize::MAX, in debug and release builds.", "quantifier": "every reachable builder state, every capacity up to 2^64-1", "why_tests_cant": "Overflow needs sizes no test can allocate.", "anchors": ["src/cmdline/mod.rs: get_null_terminated_representation_size, insert_str, insert_init_args, try_from"]}
{"id": "C17", "title": "Cmdline equality is an equivalence determined by the serialised form", "statement": "== on Cmdline is reflexive, symmetric and transitive, ignores capacity, and two command lines that serialise are equal iff their bytes are equal.", "quantifier": "all pairs and triples of Cmdline values", "why_tests_cant": "Relational property over all pairs.", "anchors": ["src/cmdline/mod.rs: PartialEq for Cmdline"]}
{"id": "C18", "title": "load_cmdline writes the terminated command line and nothing else", "statement": "If load_cmdline(mem, addr, cl) returns Ok then guest memory at addr holds exactly cl's serialisation including its NUL and every other guest byte is unchanged.", "quantifier": "every memory layout and content, every address, every command line", "why_tests_cant": "Region boundaries and contents are arbitrary.", "anchors": ["src/loader/mod.rs: load_cmdline"]}
{"id": "C19", "title": "load_cmdline succeeds exactly when the command line fits", "statement": "load_cmdline returns Ok iff the command line serialises and every byte of [addr, addr+len) is backed by guest memory; it reports InvalidCommandLine for unserialisable command lines, CommandLineOverflow when the last byte lies past the last guest address (or past 2^64), CommandLineCopy when a hole is hit; in the first two cases memory is unchanged.", "quantifier": "every memory layout (any number of regions and holes), every address, every command line", "why_tests_cant": "All layouts and addresses, including 2^64 wrap-around.", "anchors": ["src/loader/mod.rs: load_cmdline"]}
{"id": "C20", "title": "ELF load places every loadable segment", "statement": "If Elf::load returns Ok, guest memory afterwards is the old memory overlaid, in program header order, with file bytes [p_offset, p_offset+p_filesz) at kernel_offset+p_paddr for every PT_LOAD header with p_filesz>0; no other guest byte changes.", "quantifier": "every image, memory layout, offset, reader with arbitrary short reads and I/O faults, both guest memory access strategies", "why_tests_cant": "Any number of segments, overlapping or split over regions.", "anchors": ["src/loader/elf/mod.rs: Elf::load", "src/loader_gen/x86_64/elf.rs: Elf64_Ehdr, Elf64_Phdr"]}
{"id": "C21", "title": "ELF load reports entry and end addresses correctly", "statement": "On Ok, kernel_load = kernel_offset + e_entry, kernel_end = the maximum over loaded segments of kernel_offset+p_paddr+p_memsz (0 if none), both without wrap-around, and setup_header is None.", "quantifier": "every image, memory and offset", "why_tests_cant": "Maximum over arbitrarily many segments; wrap-around.", "anchors": ["src/loader/elf/mod.rs: Elf::load"]}
{"id": "C22", "title": "ELF images with a bad header are rejected and touch no memory", "statement": "If the first 64 bytes are missing, the magic is wrong, the data encoding is not little endian, e_phentsize is not 56, or e_phoff < 64, load returns respectively ReadElfHeader, InvalidElfMagicNumber, BigEndianElfOnLittle, InvalidProgramHeaderSize, InvalidProgramHeaderOffset (first failing test in that order) and guest memory is unchanged; and Ok implies none of these holds.", "quantifier": "every byte string as image", "why_tests_cant": "All byte strings.", "anchors": ["src/loader/elf/mod.rs: Elf::validate_header, Elf::load"]}
{"id": "C23", "title": "ELF high-memory check", "statement": "With highmem_start given, load fails with InvalidEntryAddress and touches no memory when the (valid) header's e_entry is below it; Ok implies e_entry >= highmem_start.", "quantifier": "every image and threshold", "why_tests_cant": "All threshold/entry pairs.", "anchors": ["src/loader/elf/mod.rs: Elf::load"]}
{"id": "C24", "title": "ELF address overflow is always caught", "statement": "Whatever 64-bit e_entry, p_paddr, p_memsz and kernel_offset are, load never computes a wrapped address: kernel_offset+e_entry overflow gives Overflow with memory untouched, kernel_offset+p_paddr overflow gives InvalidProgramHeaderAddress, end overflow gives MemoryOverflow.", "quantifier": "every image and offset", "why_tests_cant": "2^64-sized corner cases.", "anchors": ["src/loader/elf/mod.rs: Elf::load"]}
{"id": "C25", "title": "ELF load on any outcome writes only inside segment destinations", "statement": "Whatever Elf::load returns (Ok, any error), guest bytes outside the destinations [kernel_offset+p_paddr, +p_filesz) of the image's PT_LOAD headers are unchanged.", "quantifier": "every image (also malformed or truncated), every reader fault, every memory layout", "why_tests_cant": "Partial failures at any point.", "anchors": ["src/loader/elf/mod.rs: Elf::load"]}
{"id": "C26", "title": "ELF load rejects truncated images", "statement": "Ok implies that the program header table and every loaded segment lie entirely inside the file; a segment reaching past end of file makes load fail.", "quantifier": "every image", "why_tests_cant": "All truncation points.", "anchors": ["src/loader/elf/mod.rs: Elf::load"]}
{"id": "C27", "title": "Well-formed ELF images that fit are loaded", "statement": "If the header is valid, the program header table and all segments are inside the file, every loaded segment's destination is backed by memory without address overflow, notes are well formed and the reader does not fail, then Elf::load returns Ok.", "quantifier": "every such image, memory, offset", "why_tests_cant": "Completeness over all images.", "anchors": ["src/loader/elf/mod.rs: Elf::load"]}
{"id": "C28", "title": "PVH entry is ignored when an offset is requested", "statement": "With kernel_offset given, Ok results carry PvhEntryIgnored whatever notes the image contains, and note contents cannot make load fail.", "quantifier": "every image", "why_tests_cant": "All note contents.", "anchors": ["src/loader/elf/mod.rs: Elf::load"]}
{"id": "C29", "title": "PVH note parsing finds the entry point", "statement": "For an image whose PT_NOTE segment is a sequence of ELF notes (4-byte aligned name and descriptor), load without offset reports PvhEntryPresent(a) where a is the little-endian u32 at the start of the first note with type 18 and name 'Xen\\0', InvalidPvhNote if that note's descriptor is shorter than 4 bytes, and PvhEntryNotPresent if there is none.", "quantifier": "every list of notes, of any length, names and descriptors of any size", "why_tests_cant": "Unbounded note lists.", "anchors": ["src/loader/elf/mod.rs: parse_elf_note, align_up"]}
{"id": "C30", "title": "Note parsing terminates and cannot overflow", "statement": "For every image of any content (at most 2^63-1 bytes) Elf::load terminates without integer overflow or panic, in debug and release builds; in particular the note loop runs at most file_length/12 + 1 times.", "quantifier": "every image", "why_tests_cant": "Hangs and overflows need adversarial sizes.", "anchors": ["src/loader/elf/mod.rs: parse_elf_note, align_up"]}
{"id": "C31", "title": "The PVH entry of the image's PT_NOTE segment is reported", "statement": "With exactly one PT_NOTE segment holding a valid PVH entry note, a successful load without offset reports that entry. With several PT_NOTE segments the last one decides: a valid PVH entry found in an earlier one is overwritten by PvhEntryNotPresent (a concrete two-segment image shows it).", "quantifier": "every image with several PT_NOTE segments", "why_tests_cant": "Depends on the order of any number of note segments.", "anchors": ["src/loader/elf/mod.rs: Elf::load"]}
{"id": "C32", "title": "kernel_end is past every byte loaded from an ELF image", "statement": "On Ok every guest byte written lies below kernel_end, provided every segment has p_memsz >= p_filesz; without that the claim is false.", "quantifier": "every image", "why_tests_cant": "Quantifies over all segments.", "anchors": ["src/loader/elf/mod.rs: Elf::load"]}
{"id": "C33", "title": "align_up returns the least aligned value", "statement": "Rounding a 32-bit note field size up to a power-of-two alignment returns the least multiple not below it; non-powers of two are refused; near 2^64 the addition overflows.", "quantifier": "every 64-bit value and alignment", "why_tests_cant": "2^64 values.", "anchors": ["src/loader/elf/mod.rs: align_up"]}
{"id": "C34", "title": "bzImage acceptance", "statement": "BzImage::load without reader faults succeeds iff the file has the HdrS magic at 0x202, version >= 0x200, LOADED_HIGH set, at least (setup_sects or 4, plus 1)*512 bytes, code32_start >= highmem_start if given, and the payload destination is backed by guest memory without overflow.", "quantifier": "every file content, memory layout and option", "why_tests_cant": "All byte strings.", "anchors": ["src/loader/bzimage/mod.rs: BzImage::load", "src/loader_gen/x86_64/bootparam.rs: setup_header"]}
{"id": "C35", "title": "bzImage payload placement", "statement": "On Ok guest memory at kernel_load holds exactly the file bytes from (setup_sects' + 1)*512 to the end, all other guest bytes are unchanged, kernel_load is kernel_offset if given else code32_start, kernel_end = kernel_load + payload length without wrap.", "quantifier": "every image, memory, reader behaviour", "why_tests_cant": "All sizes, split regions, short reads.", "anchors": ["src/loader/bzimage/mod.rs: BzImage::load"]}
{"id": "C36", "title": "bzImage returned setup header", "statement": "On Ok setup_header is Some of the 123 header bytes at file offset 0x1f1 with only code32_start replaced by kernel_load modulo 2^32; it therefore equals kernel_load iff kernel_load < 2^32.", "quantifier": "every image and offset", "why_tests_cant": "All field values; truncation above 4 GiB.", "anchors": ["src/loader/bzimage/mod.rs: BzImage::load", "src/loader_gen/x86_64/bootparam.rs: setup_header"]}
{"id": "C37", "title": "bzImage errors are classified and header errors touch no memory", "statement": "Without short reads or I/O errors a bad magic, version or load flag gives InvalidBzImage, a too short file Underflow, a low code32_start InvalidKernelStartAddress, in that order, all with guest memory unchanged, and a payload that does not fit gives ReadBzImageCompressedKernel. For every source, the only error after memory was touched is ReadBzImageCompressedKernel and it changes only bytes of the destination range; load never panics and never reports MemoryOverflow.", "quantifier": "every image and memory", "why_tests_cant": "All combinations.", "anchors": ["src/loader/bzimage/mod.rs: BzImage::load"]}
{"id": "C38", "title": "A bzImage is only reported as loaded if the file holds a whole header and setup part", "statement": "Whatever the source does (also short reads), Ok implies that the file has a good header and holds the whole setup part, and the first 33 bytes of the returned header are the file's. The rest of the returned header is guaranteed to be the file's only if the source delivers the header in one read: with a short read the byte count is ignored and the remaining fields are zero, so the kernel may even be placed at address 0 (concrete source shows it).", "quantifier": "every image, every reader", "why_tests_cant": "Depends on reader scheduling.", "anchors": ["src/loader/bzimage/mod.rs: BzImage::load"]}
{"id": "C39", "title": "PE image acceptance and placement", "statement": "On Ok, PE::load wrote the entire file at kernel_load = kernel_offset (default 0) + text_offset, where text_offset is the header's, or 0x80000 on aarch64 when image_size is 0; all other guest bytes are unchanged and kernel_end = kernel_load + file length without wrap.", "quantifier": "every image, memory, both architectures", "why_tests_cant": "All contents.", "anchors": ["src/loader/pe/mod.rs: PE::load"]}
{"id": "C40", "title": "PE image rejection", "statement": "Missing header, wrong magic (0x644d5241 at 0x38 on aarch64, 0x05435352 at 0x38 on riscv64), kernel_offset not a multiple of 2 MiB and kernel_offset+text_offset overflow are rejected, in that order, with ReadImageHeader, InvalidImageMagicNumber, InvalidBaseAddrAlignment, InvalidImage and guest memory unchanged.", "quantifier": "every image and offset", "why_tests_cant": "All contents.", "anchors": ["src/loader/pe/mod.rs: PE::load"]}
{"id": "C41", "title": "PE completeness", "statement": "A file of at least 64 bytes with the right magic, aligned offset, and destination backed by guest memory is always loaded by a fault-free reader.", "quantifier": "every image, memory", "why_tests_cant": "All contents.", "anchors": ["src/loader/pe/mod.rs: PE::load"]}
{"id": "C42", "title": "load_dtb writes the whole blob or fails", "statement": "load_dtb returns Ok only if the blob is at most 2 MiB and then guest memory at the address holds exactly the blob and nothing else changed; a larger blob gives DtbTooBig with memory unchanged.", "quantifier": "every blob, memory, address", "why_tests_cant": "All contents.", "anchors": ["src/loader/pe/mod.rs: load_dtb"]}
{"id": "C43", "title": "Linux/FDT boot parameter writing", "statement": "write_bootparams of the Linux and FDT configurators returns Ok iff the header range and the byte after it are backed by memory, and then memory at header_start holds exactly the header bytes with all other bytes unchanged; it returns the past-end error iff the byte after the header is not backed, leaving memory unchanged, and the write error iff that byte is backed but some header byte is not, changing only bytes of the header range.", "quantifier": "every BootParams, every memory layout", "why_tests_cant": "All layouts.", "anchors": ["src/configurator/x86_64/linux.rs: write_bootparams", "src/configurator/fdt.rs: write_bootparams"]}
{"id": "C44", "title": "PVH boot parameter writing", "statement": "On Ok guest memory is the old memory overlaid by the memory map at sections_start, then the start info at header_start, then the modules (if any) at modules_start; nothing else changed; if the three areas are disjoint each is readable in full.", "quantifier": "every BootParams, every memory layout", "why_tests_cant": "Overlaps and layouts.", "anchors": ["src/configurator/x86_64/pvh.rs: write_bootparams"]}
{"id": "C45", "title": "PVH boot parameter errors", "statement": "Missing sections or sections_start, ranges past the end and missing modules_start give the documented errors; missing sections or address and a memory map past the end leave memory unchanged; whatever happens only the three areas are modified.", "quantifier": "every BootParams and memory", "why_tests_cant": "All combinations.", "anchors": ["src/configurator/x86_64/pvh.rs: write_bootparams"]}
{"id": "C46", "title": "Boot parameters that exactly reach the end of memory are refused", "statement": "A header or memory map that fits in guest memory is written if the byte after it is also guest memory; if it ends exactly at the end of guest memory (nothing backed after it), the Linux, FDT and PVH configurators refuse it with the past-end error although it fits, without writing it. PVH modules have no such margin: they are accepted when they fit exactly.", "quantifier": "every memory layout and header length", "why_tests_cant": "Boundary for all layouts.", "anchors": ["src/configurator/x86_64/linux.rs: write_bootparams", "src/configurator/x86_64/pvh.rs: write_bootparams", "src/configurator/fdt.rs: write_bootparams"]}
{"id": "C47", "title": "Appending sections and modules", "statement": "After set_sections/set_modules at address s, appending any sequence of elements with no explicit address returns s plus the total size of everything before, and the stored bytes are the concatenation in order; header and the other list are unaffected.", "quantifier": "every list of elements of any sizes", "why_tests_cant": "Histories of any length.", "anchors": ["src/configurator/mod.rs: BootParams::set_sections, add_section, set_modules, add_module, add_boot_parameter_to_list"]}
{"id": "C48", "title": "Adding at an explicit address", "statement": "add_section/add_module at address a >= start stores the element's bytes at a - start, keeps every other existing byte, zero-fills any gap, never shortens the list, and returns a; if no start address was set a becomes the start.", "quantifier": "every list state and address", "why_tests_cant": "All offsets incl. overlaps.", "anchors": ["src/configurator/mod.rs: add_boot_parameter_to_list"]}
{"id": "C49", "title": "add_section / add_module errors", "statement": "MissingStartAddress iff neither a start nor an address is given; Overflow iff start plus current length overflows 64 bits; InvalidAddress iff the address precedes the start.", "quantifier": "every list state and address", "why_tests_cant": "All states.", "anchors": ["src/configurator/mod.rs: add_boot_parameter_to_list"]}
{"id": "C50", "title": "A failed add keeps all elements, addresses and the header", "statement": "If add_section or add_module returns an error, the header, the other list and the bytes of the list itself are as before, and for parameters built with new/set_/add_ calls so are both start addresses. The one difference: a list that was absent is now present and empty; this is observable, because PVH write_bootparams then fails with ModulesAddressMissing (concrete parameters show it). Only for a list given contents but no address by direct field assignment can an Overflow error also record the given address.", "quantifier": "every BootParams", "why_tests_cant": "All states.", "anchors": ["src/configurator/mod.rs: add_section, add_module, add_boot_parameter_to_list"]}
{"id": "C51", "title": "add_section / add_module abort only beyond the address space", "statement": "For every address and element the call returns normally unless the list would have to grow to 2^63 bytes or more, in which case it panics; so a large explicit address far above the list's start aborts the VMM in debug and release builds (concrete call shows it).", "quantifier": "every BootParams, address and element", "why_tests_cant": "Needs 64-bit corner addresses.", "anchors": ["src/configurator/mod.rs: add_boot_parameter_to_list"]}
{"id": "C52", "title": "Built PVH parameters reach the guest", "statement": "If boot parameters are built with set_/add_ calls and PVH write_bootparams returns Ok, then every module element is in guest memory at the address add_module returned (unless a later add overlapped it), and likewise the memory map entries and start info if the areas are disjoint.", "quantifier": "every history of BootParams calls, every memory", "why_tests_cant": "Composition of two APIs over histories.", "anchors": ["src/configurator/mod.rs: BootParams", "src/configurator/x86_64/pvh.rs: write_bootparams"]}
{"id": "C53", "title": "Boot structures have the ABI layout", "statement": "boot_params, setup_header, boot_e820_entry, hvm_start_info, hvm_modlist_entry, hvm_memmap_table_entry, the ELF-64 and ELF-32 headers the crate exports, and the arm64 and riscv64 image headers have the sizes, field offsets and field sizes the kernel, Xen and ELF documents give and no other fields except padding; in every structure different fields never share a byte and lie inside it, and packed structures have no gaps. This covers every struct of loader_gen (boot_params and all structures inside it, the PVH structures, ELF-32 and ELF-64 structures) and the arm64/riscv Image headers.", "quantifier": "all fields of all structures", "why_tests_cant": "Compile-time assertions check only total sizes.", "anchors": ["src/loader_gen/x86_64/bootparam.rs: boot_params, setup_header", "src/loader_gen/x86_64/start_info.rs: hvm_start_info", "src/loader_gen/x86_64/elf.rs: Elf64_Ehdr, Elf64_Phdr, Elf64_Nhdr"]}
{"id": "C54", "title": "Field values written by the VMM are read back by the guest", "statement": "For any sequence of field assignments on any initial value, after Linux (resp. PVH) write_bootparams returns Ok the little-endian integer in guest memory at header_start + ABI offset is the value last assigned to that field cut to its width (or the initial value), for all fields of the zero page, the setup header, the e820 table and the PVH start info (if the modules do not overlap it), and likewise for memory map and module entries; assigning a field changes no byte outside it.", "quantifier": "all field values, addresses and memories", "why_tests_cant": "All values.", "anchors": ["src/loader_gen/x86_64/bootparam.rs: boot_params", "src/loader_gen/x86_64/start_info.rs: hvm_start_info", "src/configurator/x86_64/linux.rs: write_bootparams"]}
{"id": "C55", "title": "bzImage header reaches the zero page", "statement": "If BzImage::load (no short reads) returns header h, h is copied into boot_params.hdr and Linux write_bootparams succeeds at address z, then guest memory at z+0x1f1 holds the file's header bytes except code32_start, which is kernel_load modulo 2^32, and the rest of the zero page is as prepared; fields assigned afterwards have the assigned values, header fields not assigned keep the file's values, and the kernel is still in place if the zero page does not overlap it.", "quantifier": "every image and memory", "why_tests_cant": "Composition of loader and configurator.", "anchors": ["src/loader/bzimage/mod.rs: BzImage::load", "src/configurator/x86_64/linux.rs: write_bootparams", "src/loader_gen/x86_64/bootparam.rs: boot_params"]}
{"id": "C56", "title": "Each call writes exactly its pieces and nothing else", "statement": "Every loading or writing call of a VMM (ELF, bzImage, PE and DTB loading, load_cmdline, Linux/FDT/PVH write_bootparams) that reports success changes guest memory to the old contents with exactly the call's pieces on top (segments, payload, image, blob, NUL-terminated text, parameter areas, at the addresses the file and the caller dictate); whatever it reports it changes no byte outside these areas, and it never panics.", "quantifier": "every call, argument, image, image source (position, read sizes, faults), memory layout and backend", "why_tests_cant": "All inputs and all outcomes; tests look at a few bytes after a few successes.", "anchors": ["src/loader/elf/mod.rs: Elf::load", "src/loader/bzimage/mod.rs: BzImage::load", "src/loader/pe/mod.rs: PE::load, load_dtb", "src/loader/mod.rs: load_cmdline", "src/configurator: write_bootparams"]}
{"id": "C57", "title": "Guest memory contents never influence a call", "statement": "Two runs of the same call on memories with the same regions but different contents report the same result, and every byte is afterwards either the same in both or untouched in both: nothing that was in guest memory leaks into results or decisions.", "quantifier": "every call and every pair of memories with the same layout", "why_tests_cant": "Non-interference relates pairs of executions.", "anchors": ["src/loader/elf/mod.rs: Elf::load", "src/loader/bzimage/mod.rs: BzImage::load", "src/loader/pe/mod.rs: PE::load, load_dtb", "src/loader/mod.rs: load_cmdline", "src/configurator: write_bootparams"]}
{"id": "C58", "title": "What one call placed survives later calls elsewhere", "statement": "In any sequence of calls on one guest memory, a piece placed by a successful call is in guest memory at the end if no later piece of the same call and no later call (successful or failed) covers its addresses.", "quantifier": "every sequence of calls of any length", "why_tests_cant": "Histories of unbounded length with failures anywhere.", "anchors": ["src/loader", "src/configurator"]}
{"id": "C59", "title": "The order of calls on separate areas does not matter", "statement": "If the calls of a sequence work on pairwise disjoint areas, every permutation gives each call the same report and the same final guest memory.", "quantifier": "every sequence and every permutation", "why_tests_cant": "All orders of all sequences.", "anchors": ["src/loader", "src/configurator"]}
{"id": "C60", "title": "Retrying leaves no trace of a failed attempt; repeating changes nothing", "statement": "After an attempt that failed part-way (any reason, e.g. an I/O error), a successful retry of the same request leaves memory exactly as if the first attempt had never happened; repeating a successful call reports the same and leaves memory unchanged. (bzImage without an address given: provided the source does not cut reads short.)", "quantifier": "every call, failure point and memory", "why_tests_cant": "All failure points.", "anchors": ["src/loader", "src/configurator"]}
{"id": "C61", "title": "The outcome depends on image bytes, arguments and guest bytes only", "statement": "Two calls with the same arguments on sources of the same image (standing at any position, returning any number of bytes per read, never failing; bzImage and slice-wise backends: not cutting reads short) and on guest memories with the same bytes at the same addresses (split into regions in any way) report the same result and leave the same bytes; likewise for whole sequences of calls.", "quantifier": "every pair of environments, every call, every sequence", "why_tests_cant": "Hyperproperty over pairs of environments: chunk sizes, file positions, region layouts.", "anchors": ["src/loader/elf/mod.rs: Elf::load", "src/loader/bzimage/mod.rs: BzImage::load", "src/loader/pe/mod.rs: PE::load, load_dtb", "src/loader/mod.rs: load_cmdline", "src/configurator: write_bootparams"]}
{"id": "C62", "title": "The command line reaches the guest", "statement": "For every history of builder calls on a Cmdline of capacity cap, once load_cmdline at addr returned Ok, the NUL-terminated string at addr in guest memory is the text of the accepted arguments in order (boot arguments, then ' -- ' and init arguments), and stays so after any later calls that keep out of [addr, addr+cap).", "quantifier": "every history of builder calls, memory, address and later calls", "why_tests_cant": "Composition of unbounded histories.", "anchors": ["src/cmdline/mod.rs: Cmdline", "src/loader/mod.rs: load_cmdline"]}
{"id": "C63", "title": "A Linux boot is complete", "statement": "After BzImage::load, and any sequence of successful calls on separate areas in any order that includes load_cmdline(addr) and Linux write_bootparams of a zero page made from the returned header with cmd_line_ptr = addr < 2^32 and any other field assignments: the kernel is at kernel_load, the guest following cmd_line_ptr at offset 0x228 finds the command line, code32_start is kernel_load mod 2^32, assigned fields have their values and the other header fields those of the file.", "quantifier": "every image, memory, field assignment, order and further calls", "why_tests_cant": "Composition of all parts in any order.", "anchors": ["src/loader/bzimage/mod.rs: BzImage::load", "src/loader/mod.rs: load_cmdline", "src/configurator/x86_64/linux.rs: write_bootparams"]}
{"id": "C64", "title": "A PVH boot is complete", "statement": "After Elf::load and any sequence of successful calls on separate areas in any order that includes load_cmdline(addr) and PVH write_bootparams with non-overlapping areas: each kernel segment not covered by a later one is in place, and the guest following cmdline_paddr, memmap_paddr and modlist_paddr of the start info finds the command line, the memory map and the module list; all start info fields have the values assigned.", "quantifier": "every image, memory, field assignment, order and further calls", "why_tests_cant": "Composition of all parts in any order.", "anchors": ["src/loader/elf/mod.rs: Elf::load", "src/loader/mod.rs: load_cmdline", "src/configurator/x86_64/pvh.rs: write_bootparams"]}
{"id": "C65", "title": "Error messages identify the error", "statement": "Two kernel loader errors, or two command line errors (including MissingVal with its key), with the same Display text are the same error; boot configurator errors are identified by Display together with the Display of source() (the message alone is refuted: it leaves out the inner error). source() is present exactly for wrapped errors and the loader's message ends with it. Every message mentions what was being done, to what, and for which kind of kernel or boot protocol (MissingVal: the key). Messages of every error the API returns are a single line of printable ASCII, whatever the arguments contained. PvhBootCapability's Display states the entry address in hexadecimal and distinguishes all values.", "quantifier": "every error value, every key, every entry address, every failing call", "why_tests_cant": "Keys and addresses are unbounded; pairs of errors are many.", "anchors": ["src/cmdline/mod.rs: Display for Error", "src/loader/mod.rs: Display, source", "src/loader/elf/mod.rs: Display for Error, PvhBootCapability", "src/loader/bzimage/mod.rs", "src/loader/pe/mod.rs", "src/configurator/mod.rs: Display, source"]}
{"id": "C66", "title": "ELF info words unpack losslessly", "statement": "ELF32/64_ST_BIND, _ST_TYPE, ELF32_R_SYM/_R_TYPE and ELF64_R_SYM/_R_TYPE recover exactly the two parts packed as the ELF specification says, for every pair that fits, and the two parts of every word determine it (no bit lost by the narrowing casts).", "quantifier": "every 8-, 32- and 64-bit info word", "why_tests_cant": "2^64 words.", "anchors": ["src/loader_gen/x86_64/elf.rs: ELF_ST_BIND, ELF_ST_TYPE, ELF32_R_SYM, ELF32_R_TYPE, ELF64_R_SYM, ELF64_R_TYPE"]}
{"id": "C67", "title": "A failing image source is reported as the step that failed", "statement": "When a load fails because the image source failed an operation, the error kind names that very step (start of file, header, program headers, segment, notes, image end, setup header, compressed kernel, device tree), the failing operation is of the kind named (a seek error needs a failing seek or an impossible position; a read error needs a failing read, a short image or unbacked memory), nothing has been written before the payload steps, and for an ELF image every segment before the culprit is already in place exactly as specified. Conversely a fault at a given step yields that step's error.", "quantifier": "every image, every guest memory, every argument, every pattern of failing seek and read operations, both copy backends, both build modes", "why_tests_cant": "The fault patterns are infinite and interact with arbitrary images; tests use in-memory cursors that never fail.", "anchors": ["src/loader/elf/mod.rs: Elf::load, parse_elf_note", "src/loader/bzimage/mod.rs: BzImage::load", "src/loader/pe/mod.rs: PE::load, load_dtb"]}
{"id": "C68", "title": "Structures handed over as raw bytes have no hidden bytes", "statement": "Every byte of each structure the crate declares to be plain bytes (boot_params, setup_header, the three PVH structures, the ELF header, program header and note header, the arm64 and riscv64 image headers) belongs to exactly one integer field: there is no padding, so no uninitialised byte of the VMM can reach the guest. Hence the fields determine the bytes, and every byte string of the right length is the image of a valid value.", "quantifier": "every byte offset and field path of every such structure, every value, every byte string", "why_tests_cant": "Layout tests compare sizes and a few offsets; soundness of the unsafe ByteValued impls needs every byte and every value.", "anchors": ["src/loader/mod.rs: unsafe impl ByteValued for setup_header, boot_params", "src/configurator/x86_64/pvh.rs: unsafe impl ByteValued for StartInfoWrapper, MemmapTableEntryWrapper, ModlistEntryWrapper", "src/loader/elf/mod.rs: unsafe impl ByteValued", "src/loader/pe/mod.rs: unsafe impl ByteValued"]}
{"id": "C69", "title": "Memory from the reported kernel end on is free", "statement": "After a successful load of an image whose segments have no more file bytes than memory bytes (ELF), or whose header is delivered in one read (bzImage without explicit address), or of any arm64/riscv64 Image: nothing at or above kernel_end (and for bzImage and Image nothing below kernel_load) was written. So whatever the VMM afterwards loads at or above kernel_end with any sequence of calls, successful or not, the kernel stays as loaded.", "quantifier": "every image, memory, offset, every later sequence of calls", "why_tests_cant": "Ranges over all images and all later call sequences.", "anchors": ["src/loader/mod.rs: KernelLoaderResult::kernel_end", "src/loader/elf/mod.rs: Elf::load", "src/loader/bzimage/mod.rs: BzImage::load", "src/loader/pe/mod.rs: PE::load"]}
{"id": "C70", "title": "Formats can be tried in turn on one open file", "statement": "Trying any list of loaders one after the other on the same open file and memory until one succeeds gives the same verdict and the same result as calling the successful one directly on the fresh file: earlier failing attempts (which leave the file position changed) do not disturb later ones; the kernel's pieces are in place, and any byte not written by a failed attempt is as after the direct load. If none succeeds, each would fail on its own too.", "quantifier": "every list of formats, every image, memory and offset, both copy backends and builds", "why_tests_cant": "Lists of attempts and images are unbounded.", "anchors": ["src/loader/elf/mod.rs: Elf::load", "src/loader/bzimage/mod.rs: BzImage::load", "src/loader/pe/mod.rs: PE::load"]}
{"id": "C71", "title": "An arm64 or riscv64 boot is complete", "statement": "After PE::load and any sequence of calls on separate areas, in any order and however many fail: the whole Image is at kernel_load, and every device tree written by FdtBootConfigurator or loaded by load_dtb and every command line loaded by load_cmdline whose call reported success is in guest memory.", "quantifier": "every image, memory, order and further calls", "why_tests_cant": "Composition of all parts in any order.", "anchors": ["src/loader/pe/mod.rs: PE::load, load_dtb", "src/configurator/fdt.rs: write_bootparams", "src/loader/mod.rs: load_cmdline"]}
{"id": "C72", "title": "A call stopped at any moment leaves only original or intended bytes", "statement": "While a loading or writing call runs, and when it is cut short at any point (crash, failing source, an observer looking in between), every byte of guest memory is either the byte that was there before the call or the byte the image (or argument) places there; the stores follow the plan in order, each piece from first to last byte, and a successful call has made all of them. If the planned pieces do not overlap, no value other than the original and the final one is ever visible. (For vm-memory's slice-wise copying the source must not cut reads short; a concrete case shows that this is needed.)", "quantifier": "every call, image, memory, source behaviour, every moment and every order in which the call's stores become visible", "why_tests_cant": "Crash points are everywhere between any two stores, for every image.", "anchors": ["src/loader/elf/mod.rs: Elf::load", "src/loader/bzimage/mod.rs: BzImage::load", "src/loader/pe/mod.rs: PE::load, load_dtb", "src/loader/mod.rs: load_cmdline", "src/configurator: write_bootparams"]}
{"id": "C73", "title": "Threads loading into separate areas do not disturb each other", "statement": "Several threads each perform a sequence of loading and writing calls on the same guest memory, on areas no other thread touches, while something else writes elsewhere. However their single-byte stores interleave, the area of every thread ends up exactly as if it had run alone, the rest as if only the others had written, and without other writers the result is that of running the threads one after the other. What a call reports and stores does not depend on the contents of guest memory at all, and it stores nothing outside its own area.", "quantifier": "every number of threads, calls, schedules and concurrent foreign writes", "why_tests_cant": "All interleavings of unboundedly many stores.", "anchors": ["src/loader/elf/mod.rs: Elf::load", "src/loader/bzimage/mod.rs: BzImage::load", "src/loader/pe/mod.rs: PE::load, load_dtb", "src/loader/mod.rs: load_cmdline", "src/configurator: write_bootparams"]}
{"id": "C74", "title": "Whatever single read calls do, a load behaves like one with whole operations", "statement": "Image sources are read through many read calls, each of which may be interrupted (EINTR), deliver fewer bytes than asked, or fail; read_exact and the copy into guest memory loop over them. For every such source and every sequence of calls there are sources whose operations succeed or fail as a whole, of the same bytes at the same position, failing only if the original one fails (bzImage: or is interrupted) and reading short only if it does, with exactly the same reports and the same guest memory. So every guarantee stated for whole operations holds for call-by-call behaviour.", "quantifier": "every image, every pattern of interruptions, short deliveries and failures of single read calls, every sequence of calls", "why_tests_cant": "Unboundedly many patterns of system call results.", "anchors": ["src/loader/elf/mod.rs: Elf::load, parse_elf_note", "src/loader/bzimage/mod.rs: BzImage::load", "src/loader/pe/mod.rs: PE::load, load_dtb"]}
{"id": "C75", "title": "Interrupted system calls are invisible", "statement": "Two sources giving the same answers but interrupted at different moments and different numbers of times lead to the same report and the same guest memory for ELF, PE and device tree loads, also when answers are short or failures; for bzImage loads this holds unless the read of the setup header is interrupted, which always makes the load fail with ReadBzImageHeader and touch nothing. A source that never fails loads an ELF, PE or device tree like a plain in-memory image, however its reads are cut and interrupted (vm-memory retrying short reads).", "quantifier": "every pair of sources, every image, every memory", "why_tests_cant": "Interruptions can occur at any moment any number of times.", "anchors": ["src/loader/elf/mod.rs: Elf::load, parse_elf_note", "src/loader/bzimage/mod.rs: BzImage::load", "src/loader/pe/mod.rs: PE::load, load_dtb"]}
{"id": "C76", "title": "The kernel sees the parameters that were inserted", "statement": "Linux's command line reader, applied to the serialised command line, yields exactly the parameters of the calls that returned Ok, in order, each name with the value given (enclosing double quotes removed; comma list for insert_multiple; the device text for add_virtio_mmio_device), after those of the text given to try_from, and hands on exactly the init arguments; no value can introduce or swallow parameters. Holds when keys are non-empty, quotes in values only enclose the whole value, and free text has balanced quotes and no lone \"--\"; outside of this the builder accepts arguments the kernel reads differently.", "quantifier": "every constructor, every history of builder calls (accepted or rejected), every key, value and text", "why_tests_cant": "Values are arbitrary texts with spaces, equals signs and dashes inside quotes, and each argument is read in the context of all others.", "anchors": ["src/cmdline/mod.rs: Cmdline::insert, insert_multiple, insert_str, insert_init_args, add_virtio_mmio_device, as_cstring", "src/loader/mod.rs: load_cmdline"]}
{"id": "C77", "title": "Parsing a command line is invisible to the kernel", "statement": "For every ASCII command line with balanced double quotes, the boot parameters and init arguments Linux reads from the serialised Cmdline::try_from result are exactly those it would have read from the original text, whatever blanks, quotes and separators it contains (also where try_from and Linux disagree about which '--' separates).", "quantifier": "every ASCII text with balanced quotes, every capacity", "why_tests_cant": "Arbitrary nesting of quotes, separators and white space.", "anchors": ["src/cmdline/mod.rs: Cmdline::try_from, as_cstring"]}
{"id": "C78", "title": "The documented rules decide every report", "statement": "For every loading or writing call with a working image source, the value it returns (the exact error, or the exact addresses, setup header and PVH capability) is the one and only value that the rules of the file formats and the documentation allow: the rules, written down without reference to the implementation, give every call exactly one report and the crate returns it. For a sequence of calls all reports follow from the guest memory layout before the first one.", "quantifier": "every image content, offset, high-memory bound, command line, boot parameter set, guest memory layout, and sequence of such calls", "why_tests_cant": "A test compares with an expected value for one input; that the rules leave no case undecided or doubly decided, and that the code always agrees, concerns all inputs.", "anchors": ["src/loader/elf/mod.rs: Elf::load", "src/loader/bzimage/mod.rs: BzImage::load", "src/loader/pe/mod.rs: PE::load, load_dtb", "src/loader/mod.rs: load_cmdline", "src/configurator/x86_64/linux.rs, src/configurator/x86_64/pvh.rs, src/configurator/fdt.rs: write_bootparams"]}
{"id": "C79", "title": "A command line's whole history follows the documented rules", "statement": "For every constructor call followed by any builder calls, everything the client sees - whether a builder is made, the result of every call with its exact error, and the bytes of the final command line - is the one story allowed by the documented rules (trim, printable ASCII, key and value syntax, first bad value, room for text, separator and terminator, canonical device text).", "quantifier": "every constructor, every finite sequence of builder calls with any arguments, both build profiles", "why_tests_cant": "Histories are unbounded and every call's result depends on all earlier ones; that the rules are complete and never contradict each other is a statement about all inputs.", "anchors": ["src/cmdline/mod.rs: Cmdline::new, try_from, insert, insert_multiple, insert_str, insert_init_args, add_virtio_mmio_device, as_cstring"]}
{"id": "C80", "title": "Boot parameter building follows the documented rules", "statement": "For every sequence of set_sections, add_section, set_modules and add_module calls, the address or error each call returns, whether it aborts the program, and the header, lists and start addresses at the end are the one outcome allowed by the rules (start address, end of list overflow, address before the start, placement with zero-filled gaps, 2^63 byte limit), identically in debug and release builds.", "quantifier": "every finite sequence of calls with any element bytes and addresses", "why_tests_cant": "Sequences are unbounded and addresses range over 64 bits.", "anchors": ["src/configurator/mod.rs: BootParams::set_sections, add_section, set_modules, add_module, add_boot_parameter_to_list"]}
{"id": "C81", "title": "ELF loading does not depend on the host's pointer width", "statement": "For every image whose program header offset and segment file sizes fit into the host's usize, loading on a 32-bit host returns the same result and leaves the same memory and source state as on a 64-bit host, except that an image whose notes lead beyond usize is refused with Overflow. For every image at all, a load on either host never aborts and changes memory only where segments are to go. (An image claiming more than 4 GiB for a segment can be reported loaded with nothing copied on a 32-bit host.)", "quantifier": "every image, offset, high-memory bound, source behaviour, guest memory, backend, build profile and both pointer widths", "why_tests_cant": "Truncation shows only at sizes beyond 4 GiB on a host the test suite does not run on; equality is over all images.", "anchors": ["src/loader/elf/mod.rs: Elf::load, validate_header, parse_elf_note"]}
{"id": "C82", "title": "bzImage loading on 32-bit hosts", "statement": "For every image shorter than usize::MAX, loading a bzImage has on a 32-bit host the same result and effects as on a 64-bit one; for every image it never aborts and writes at most as many bytes as the image has; a longer image is loaded as if cut by a multiple of 4 GiB.", "quantifier": "every image, offset, high-memory bound, source behaviour, guest memory and both pointer widths", "why_tests_cant": "Needs images over 4 GiB and a 32-bit host.", "anchors": ["src/loader/bzimage/mod.rs: BzImage::load"]}
{"id": "C83", "title": "The command line builder behaves the same on every host", "statement": "For every constructor and every sequence of builder calls the results, errors and final command line follow the same documented rules on 32-bit and 64-bit hosts, in debug and release builds.", "quantifier": "every constructor whose arguments exist on the host, every finite sequence of calls, both pointer widths, both build profiles", "why_tests_cant": "Histories and lengths are unbounded, and overflow needs strings near the address-space limit.", "anchors": ["src/cmdline/mod.rs"]}
{"id": "C84", "title": "Boot parameter building on every host", "statement": "For every sequence of BootParams calls the replies and the final parameters are those of the documented rules with the limit isize::MAX of the host and with the distance of an element from the start of its list taken modulo the host's usize; as long as the lists stay below half the address space this is exactly the 64-bit behaviour. (On a 32-bit host an element 4 GiB behind the list start overwrites the first element while being reported elsewhere.)", "quantifier": "every finite sequence of calls, both pointer widths, both build profiles", "why_tests_cant": "Sequences are unbounded, the truncation only shows for distances of 4 GiB or more on hosts the tests do not run on.", "anchors": ["src/configurator/mod.rs: BootParams::add_section, add_module, add_boot_parameter_to_list"]}
{"id": "C85", "title": "Boot structures have the same layout on 32-bit and 64-bit x86", "statement": "Every structure written to or read from the guest on x86 has the same size, and every field and array element, however nested, the same offset and size, whether the host aligns u64 to 4 or to 8 bytes.", "quantifier": "every x86 structure of the crate and every field path", "why_tests_cant": "Layout tests run on one host ABI only and check few fields.", "anchors": ["src/loader_gen/x86_64/bootparam.rs", "src/loader_gen/x86_64/start_info.rs", "src/loader_gen/x86_64/elf.rs"]}
{"id": "C86", "title": "The documented rules decide guest memory after every call, also a failed one", "statement": "For every call (loading an ELF, bzImage, PE image, device tree or command line; writing Linux, device-tree or PVH boot parameters) with a working image source: the pieces the documentation says the call gets round to are determined by its inputs and its report, each piece is poured into guest memory from its address up to the first unmapped address, and nothing else changes. Report and final memory (every byte) are exactly the ones these rules allow, no other pair satisfies them; the same holds for a whole sequence of calls applied to the memory layout at the start.", "quantifier": "every call and every finite sequence of calls, every guest memory layout and content, both memory backends, both build profiles, every argument and image, successful and failing calls alike", "why_tests_cant": "What a failing call leaves behind depends on where in unboundedly many layouts and images it stops; tests look at reports or at a few bytes of successful calls.", "anchors": ["src/loader/elf/mod.rs: Elf::load", "src/loader/bzimage/mod.rs: BzImage::load", "src/loader/pe/mod.rs: PE::load, load_dtb", "src/loader/mod.rs: load_cmdline", "src/configurator/x86_64/linux.rs", "src/configurator/x86_64/pvh.rs", "src/configurator/fdt.rs"]}
{"id": "C87", "title": "PE loading does not depend on the host's byte order", "statement": "On a big-endian arm64 host (and on any other) loading an Image file gives the same report, the same guest memory and leaves the source in the same state as on a little-endian host; in particular magic, text offset and image size are read as the little-endian numbers the format prescribes.", "quantifier": "every image and source (also failing ones), offset, guest memory, both architectures, both byte orders", "why_tests_cant": "The tests run on one byte order, and a forgotten conversion of one field only shows for some header values.", "anchors": ["src/loader/pe/mod.rs: PE::load, arm64_image_header, riscv64_image_header"]}
{"id": "C88", "title": "The whole life of a command line", "statement": "A command line created by Cmdline::new or try_from, changed by any sequence of builder calls and loaded with load_cmdline behaves exactly as the documentation's rules say: the constructor's result, every call's result, the report of the load and every byte of guest memory afterwards are determined by them, and nothing else is possible.", "quantifier": "every constructor call, every finite sequence of builder calls with any arguments, every address and guest memory, both backends and build profiles", "why_tests_cant": "Sequences, texts and memory layouts are unbounded.", "anchors": ["src/cmdline/mod.rs: Cmdline", "src/loader/mod.rs: load_cmdline"]}
{"id": "C89", "title": "The whole life of boot parameters", "statement": "Boot parameters created by BootParams::new (no sections, no modules), changed by any sequence of set/add calls and written by the Linux, device-tree or PVH configurator behave exactly as the documentation's rules say: every reply, the report of the write and every byte of guest memory afterwards are determined by them, and nothing else is possible; an aborted call leaves guest memory alone.", "quantifier": "every header and address, every finite sequence of calls, every protocol, guest memory, both backends and build profiles", "why_tests_cant": "Call sequences, element sizes, addresses and memory layouts are unbounded.", "anchors": ["src/configurator/mod.rs: BootParams", "src/configurator/x86_64/linux.rs", "src/configurator/x86_64/pvh.rs", "src/configurator/fdt.rs"]}
{"id": "C90", "title": "PE images and device trees: a source that changes while it is loaded", "statement": "Whatever the image source answers, loading a PE image or a device tree blob asks for the length once, looks at the header once, and afterwards only copies. The report is the documented one for these answers, guest memory gets exactly the bytes of the answers at consecutive addresses from the load address, and no byte outside the announced length (device tree: outside 2 MiB) is written, even if the file is truncated, grown or rewritten meanwhile. No call panics.", "quantifier": "every source (any state, any answer at any time, including errors and short reads), address, offset, guest memory, both architectures and backends", "why_tests_cant": "A test uses one fixed file; the attack (changing the file between check and use) ranges over all answers and points in time.", "anchors": ["src/loader/pe/mod.rs: PE::load, load_dtb"]}
{"id": "C91", "title": "bzImages: a source that changes while it is loaded", "statement": "Whatever the source answers, loading a bzImage asks for the length once and for the setup header once; the decision, the load address, the number of bytes copied and the returned header follow from these two answers alone, guest memory gets exactly the bytes of the later answers, nothing outside the announced range is written, and no call panics.", "quantifier": "every source (any state, any answer at any time), kernel offset, highmem address, guest memory, both backends", "why_tests_cant": "A test uses one fixed file; here all answers and points of change are covered.", "anchors": ["src/loader/bzimage/mod.rs: BzImage::load"]}
{"id": "C92", "title": "ELF images: a source that changes while it is loaded", "statement": "Whatever the source answers, loading an ELF image reads the header once and the program header table once; entry point, kernel_end, destinations and sizes follow from these answers alone; a successful load has put exactly p_filesz bytes at each loadable segment of that table; nothing outside those segments is written. A panic is possible only in builds with overflow checks and without a kernel offset, and not with sources that refuse positions from 2^63 on, as files do.", "quantifier": "every source (any state, any answer at any time), kernel offset, highmem address, guest memory, both backends and build profiles", "why_tests_cant": "A test uses one fixed file; here all answers and points of change, tables and note chains of any length are covered.", "anchors": ["src/loader/elf/mod.rs: Elf::load, parse_elf_note"]}
{"id": "C93", "title": "A load depends on nothing but guest memory and the answers of the source", "statement": "If a load on one source gives a result, then on any other source that gives the same answers to the same questions it gives the same report and the same guest memory: no other state of the source, of the process or of earlier loads enters.", "quantifier": "every pair of sources, guest memory and arguments; all three loaders and load_dtb", "why_tests_cant": "Ranges over pairs of arbitrary sources.", "anchors": ["src/loader/elf/mod.rs", "src/loader/bzimage/mod.rs", "src/loader/pe/mod.rs"]}
{"id": "C94", "title": "The work of a load is bounded by the announced sizes", "statement": "No load goes on forever, whatever the source answers: a PE image or bzImage takes at most 5 operations on the source more than its announced length in bytes, a device tree blob at most 2 MiB + 2, an ELF image at most 4, plus 6 and the announced file size for each of its (fewer than 65536) program headers.", "quantifier": "every source (any state, any answers, short reads included), offset, guest memory, both backends and build profiles", "why_tests_cant": "Termination on every possible sequence of answers, including hostile note chains and one-byte reads.", "anchors": ["src/loader/elf/mod.rs: Elf::load, parse_elf_note", "src/loader/bzimage/mod.rs: BzImage::load", "src/loader/pe/mod.rs: PE::load, load_dtb"]}
{"id": "C95", "title": "Command line calls can be reordered, batched and respelled", "statement": "Calls that add boot arguments and calls that add init arguments do not influence each other: two interleavings of the same calls that are all accepted leave the same builder, and unless an init argument is blank one is accepted exactly if the other is, namely exactly if the finished command line fits. Inserting words one by one is accepted, with the same result, exactly if inserting them joined by spaces is. Every well-formed insert, insert_multiple or add_virtio_mmio_device call does the same as insert_str of its text. Parsing a printable command line gives the builder that new followed by inserting its two parts gives, or fails together with it. A larger capacity never turns an accepted sequence into a rejected one.", "quantifier": "every reachable builder, every finite sequence of calls and every interleaving, every list of words, every text to parse, every pair of capacities, both build profiles", "why_tests_cant": "Relates two whole executions over all sequences, interleavings, texts and capacities.", "anchors": ["src/cmdline/mod.rs: Cmdline::insert, insert_multiple, insert_str, insert_init_args, add_virtio_mmio_device, try_from"]}
{"id": "C96", "title": "Boot parameter calls can be reordered and batched", "statement": "Calls on sections and calls on modules do not influence each other: every interleaving gives each call the reply it has when the other calls are left out, aborts exactly if one side alone aborts, and leaves the two lists side by side under the unchanged header. set_sections and set_modules forget every earlier call on their list. Elements added at explicit, pairwise disjoint addresses give the same list in whatever order they are added, every one accepted at its address. Adding elements one after the other, the first at an address and the others without, gives consecutive addresses and the same list as setting them all at once.", "quantifier": "every boot parameters, every finite sequence of calls and every interleaving or permutation, every element bytes and addresses within the 64-bit limits, both build profiles", "why_tests_cant": "Relates two whole executions over all interleavings, permutations and element sizes.", "anchors": ["src/configurator/mod.rs: BootParams::set_sections, add_section, set_modules, add_module, add_boot_parameter_to_list"]}
{"id": "C97", "title": "Any UTF-8 text can be passed to the command line builder", "statement": "With every string argument any well-formed UTF-8 text, not only ASCII, no constructor and no call of the builder panics: no slice is taken off a character boundary. Whether a builder is made, the result of every call with its exact error, and the bytes of the final command line are what the documented rules say of the characters the bytes encode, and the stored texts are well-formed UTF-8 after every call.", "quantifier": "every constructor and every finite sequence of builder calls, every well-formed UTF-8 argument, both build profiles", "why_tests_cant": "Ranges over all UTF-8 strings, all histories, and all positions of multi-byte characters relative to separators and white space.", "anchors": ["src/cmdline/mod.rs: Cmdline::try_from, insert, insert_multiple, insert_str, insert_init_args, add_virtio_mmio_device, as_cstring, valid_str, is_quoted, contains_double_quotes"]}
{"id": "C98", "title": "Bytes of an image that belong to nothing do not matter", "statement": "Two ELF files of the same length that agree on the header, the program header table, the file bytes of loadable segments and (when no kernel offset is given) the note segments with the 19 bytes after them are loaded alike: the same report or error, the same guest memory, and the source left at the same position, even when the source fails or is slow. Bytes appended to an ELF file that loads change nothing. Of a bzImage only the setup header and the part after the setup sectors matter.", "quantifier": "every pair of files, every guest memory, kernel offset and highmem start, both build profiles, every source position, fault and pattern of short reads", "why_tests_cant": "A noninterference property relates all pairs of files; a test compares two.", "anchors": ["src/loader/elf/mod.rs: Elf::load, parse_elf_note", "src/loader/bzimage/mod.rs: BzImage::load"]}
{"id": "C99", "title": "Loading and configuring, for every image source and every guest memory implementation", "statement": "Every load, load_cmdline and write_bootparams is a conversation with the source and guest memory whose course and outcome are fixed by the answers: the same questions are asked in the same order until answers differ, the outcome is the documented one for those answers, any refusal (by the source or by guest memory) is the last thing that happens and the call fails with the error documented for it, a successful ELF load has asked guest memory to take exactly the loadable segments in table order, PE and bzImage loads exactly one range, configurators exactly the blocks of the boot parameters. Loads never call write_slice, configurators never touch a source.", "quantifier": "every implementation of guest memory and of the source (stateful, lying, failing; reads may not return more bytes than asked for), every state of them, every argument, both build profiles", "why_tests_cant": "The functions are generic in both; tests use one guest memory implementation and Cursor or File.", "anchors": ["src/loader/elf/mod.rs: Elf::load, parse_elf_note", "src/loader/bzimage/mod.rs: BzImage::load", "src/loader/pe/mod.rs: PE::load, load_dtb", "src/loader/mod.rs: load_cmdline", "src/configurator/x86_64/linux.rs", "src/configurator/x86_64/pvh.rs", "src/configurator/fdt.rs: write_bootparams"]}
{"id": "C100", "title": "The builder against user code behind AsRef<str>", "statement": "Whatever the code behind AsRef<str> answers, and whether or not it panics: a call that does not return Ok (an error, or a panic of user code caught by the caller) leaves the builder as it was; the crate itself never panics; every history leaves a builder that calls with plain strings also reach, so capacity, printable contents and serialisation guarantees hold; insert asks for key and value once each, insert_multiple for the key once and each value exactly twice in order, checking the first answer and inserting the second; with stable answers the calls are the plain-string calls.", "quantifier": "every implementation of AsRef<str> (stateful, inconsistent, panicking), every state of it, every builder and history, both build profiles", "why_tests_cant": "Tests use &str and String, whose as_ref is pure and total.", "anchors": ["src/cmdline/mod.rs: Cmdline::insert, insert_multiple, insert_str, insert_init_args"]}
{"id": "C101", "title": "More guest memory never hurts", "statement": "If a call (or every call of a sequence) succeeds on a guest memory, it succeeds on every guest memory that has at least the same addresses, whatever its contents and its division into regions: same report, and exactly the same bytes written at the same addresses, nothing else.", "quantifier": "every call and sequence of calls with working sources, every pair of guest memories one of which has all addresses of the other, both strategies and build profiles", "why_tests_cant": "Relates two runs on arbitrary memory layouts.", "anchors": ["src/loader/elf/mod.rs: Elf::load", "src/loader/bzimage/mod.rs: BzImage::load", "src/loader/pe/mod.rs: PE::load, load_dtb", "src/loader/mod.rs: load_cmdline", "src/configurator: write_bootparams (linux, pvh, fdt)"]}
{"id": "C102", "title": "A guest prepared elsewhere is the same guest elsewhere", "statement": "Moving guest memory and every address the caller passes (load offset, device tree and command line address, boot parameter addresses) up by the same amount changes nothing but addresses: the same error, or the same result with the addresses moved (and code32_start of the returned setup header adapted), and guest memory afterwards, byte for byte, moved by that amount, after failed calls as well. Default offsets are covered: for bzImage and PE they equal the explicit ones; an ELF image loaded without offset reports the same addresses with offset 0, only its PVH notes are then ignored.", "quantifier": "every displacement that keeps valid addresses below 2^64 (multiples of 2 MiB for PE images), every call and sequence of calls with working sources, every guest memory, both strategies and build profiles", "why_tests_cant": "Relates runs at arbitrary displacements; a test tries a handful of addresses.", "anchors": ["src/loader/elf/mod.rs: Elf::load", "src/loader/bzimage/mod.rs: BzImage::load", "src/loader/pe/mod.rs: PE::load, load_dtb", "src/loader/mod.rs: load_cmdline", "src/configurator: write_bootparams (linux, pvh, fdt)"]}
{"id": "C103", "title": "Memory strategies and build profiles agree", "statement": "Which of the two ways vm-memory uses to move bytes (try_access or region slices) makes no difference to report or guest memory, unless the call stores an empty piece; then whatever the first accepts the second accepts with the same effect. Overflow checks on or off make no difference at all, for any source, even one that fails.", "quantifier": "every call and sequence of calls, every guest memory, every argument and image", "why_tests_cant": "A test binary is built with one vm-memory and one profile at a time.", "anchors": ["src/loader/elf/mod.rs: Elf::load", "src/loader/bzimage/mod.rs: BzImage::load", "src/loader/pe/mod.rs: PE::load, load_dtb", "src/loader/mod.rs: load_cmdline", "src/configurator: write_bootparams (linux, pvh, fdt)"]}
{"id": "C104", "title": "Equality and defaults of structures and load results see exactly the bytes", "statement": "Two values of any exported boot structure compare equal with == exactly if all their integer fields are equal, and exactly if the bytes a guest would be given are equal; Default::default() gives a value whose bytes are all zero, whatever was in memory before. Two KernelLoaderResults of successful loads compare equal exactly if they agree in kernel_load, kernel_end, setup header and PVH capability. Two errors of the loaders, configurators or the command line builder compare equal exactly if they are the same variant carrying the same, so comparing the whole reports of two loads tells exactly whether they agree.", "quantifier": "every exported structure, every pair of values; every pair of errors; every pair of loads", "why_tests_cant": "Ranges over all values of all structures; hidden padding would make equal values have different bytes only sometimes.", "anchors": ["src/loader_gen/x86_64/bootparam.rs: derive(Default, PartialEq)", "src/loader_gen/x86_64/start_info.rs", "src/loader_gen/x86_64/elf.rs", "src/loader/mod.rs: KernelLoaderResult", "src/loader/elf/mod.rs: PvhBootCapability"]}
{"id": "C105", "title": "Host memory taken by loading and building is bounded", "statement": "Whatever the image source answers, Elf::load never holds more than 5505024 bytes (5.25 MiB) of heap, and for an image file never more than three times the length of the file plus 56 bytes, however many program headers it announces. A Cmdline allocates nothing when created with new, whatever its capacity, and after any calls holds at most twice its text plus 16 bytes, hence at most twice its capacity plus 16. The lists of a BootParams hold nothing at first and after any add and set calls at most twice their contents plus 8 bytes, each; an element far behind the start of its list makes the contents that long.", "quantifier": "every image source, image, guest memory, offset; every constructor and sequence of builder calls; every sequence of BootParams calls", "why_tests_cant": "A bound over every image and every source; a test measures a few.", "anchors": ["src/loader/elf/mod.rs: Elf::load", "src/cmdline/mod.rs: Cmdline::new, try_from, insert_str, insert_init_args", "src/configurator/mod.rs: BootParams"]}
{"id": "C106", "title": "Linux creates the virtio devices the VMM added", "statement": "After any sequence of builder calls (accepted or rejected, in any order) none of which names the driver except through add_virtio_mmio_device, a Linux kernel that is given the resulting text (as a CString or in guest memory through load_cmdline) creates exactly one virtio-mmio device per accepted request, in that order, whose registers are the size bytes from the base address, with the interrupt and id that were asked for (ids count up from the last one given when none is), provided the requests lie inside the address space, have an interrupt other than 0 and ids that are positive ints. What Linux makes of other accepted requests (no device, negative id, wrapped end) is described exactly.", "quantifier": "every capacity, every sequence of builder calls, all sizes, addresses, interrupts and ids of the argument types, every guest memory", "why_tests_cant": "The text format, the size suffix, the number bases and the place among other arguments must agree with the reader for all numbers and all histories.", "anchors": ["src/cmdline/mod.rs: add_virtio_mmio_device, guestaddress_to_str, as_cstring", "src/loader/mod.rs: load_cmdline"]}
{"id": "C107", "title": "A bzImage boot hands Linux exactly what the VMM meant", "statement": "A VMM loads a bzImage, copies the returned setup header into a zero page, assigns loader type, command line pointer, ramdisk address and size (with their upper halves) and an e820 map of 2 to 128 entries, and performs any calls on separate areas in any order, among them the writing of that page through LinuxBootConfigurator and of the command line through load_cmdline. If those calls report success then Linux, reading guest memory at the published offsets, finds exactly that memory map, that ramdisk and that command line; the parameters it parses are the ones inserted and the virtio-mmio devices it creates are the ones added; and the kernel is at its load address.", "quantifier": "every image, guest memory, previous content of the page with a zero sentinel, memory map, 64-bit addresses, builder history, set and order of separate calls, both access backends", "why_tests_cant": "It joins the declared structures, the loader, the configurator, the builder and the reader: all values of all fields, all memory layouts and all orders of calls.", "anchors": ["src/loader/bzimage/mod.rs: load", "src/configurator/x86_64/linux.rs: write_bootparams", "src/loader_gen/x86_64/bootparam.rs: boot_params", "src/loader/mod.rs: load_cmdline", "src/cmdline/mod.rs: Cmdline"]}
{"id": "C108", "title": "A PVH boot hands Linux exactly what the VMM meant", "statement": "The same for PVH: a VMM loads an ELF kernel, fills an hvm_start_info, a list of memory map entries (1 to 128) and a list of modules, and performs any calls on separate areas in any order, among them PvhBootConfigurator::write_bootparams with these and load_cmdline. If they report success then Linux, entered through PVH, finds exactly that memory map (followed by the ISA range it adds itself when there is room), the first module as its ramdisk, that command line, the parameters inserted and the virtio-mmio devices added.", "quantifier": "every kernel image, guest memory, memory map, module list, addresses (below 4 GiB where Linux requires it), builder history, set and order of separate calls, both access backends", "why_tests_cant": "As for C107.", "anchors": ["src/loader/elf/mod.rs: load", "src/configurator/x86_64/pvh.rs: write_bootparams", "src/loader_gen/x86_64/start_info.rs: hvm_start_info, hvm_memmap_table_entry, hvm_modlist_entry", "src/configurator/mod.rs: BootParams", "src/loader/mod.rs: load_cmdline"]}
{"id": "C109", "title": "No failure of an image source is swallowed", "statement": "Whatever an image source does, the first error it answers (to a seek or a read, at any step of loading an ELF, bzImage or PE image or a device tree) is the last question of the call, and the call reports an error: one of the \"unable to seek\" errors for a failed seek, one of the \"unable to read\" errors for a failed read, that of the step which asked. So a call that reports success got an answer to each of its questions.", "quantifier": "every source (any state, any answers), every image format, offset, guest memory, both backends and build profiles", "why_tests_cant": "A test can fail one operation of one image; this is about every operation of every conversation.", "anchors": ["src/loader/elf/mod.rs: Elf::load, parse_elf_note", "src/loader/bzimage/mod.rs: BzImage::load", "src/loader/pe/mod.rs: PE::load, load_dtb"]}
{"id": "C110", "title": "An ELF kernel booted through a zero page gets exactly what the VMM meant", "statement": "A VMM performs any calls on separate areas in any order, among them Elf::load of a kernel, LinuxBootConfigurator::write_bootparams of a zero page with any setup header, in which it assigned loader type, command line pointer, ramdisk address and size and an e820 map of 2 to 128 entries, and load_cmdline. If these three report success then Linux, reading guest memory at the published offsets, finds exactly that memory map, ramdisk and command line, parses the parameters that were inserted and creates the virtio-mmio devices that were added; every segment of the kernel not covered by a later one is in place.", "quantifier": "every kernel image, guest memory, page with a zero sentinel, setup header, memory map, 64-bit addresses, builder history, set and order of separate calls, both access backends", "why_tests_cant": "As for C107.", "anchors": ["src/loader/elf/mod.rs: load", "src/configurator/x86_64/linux.rs: write_bootparams", "src/loader_gen/x86_64/bootparam.rs: boot_params, setup_header", "src/loader/mod.rs: load_cmdline", "src/cmdline/mod.rs: Cmdline"]}
{"id": "C111", "title": "What is placed off the memory a kernel takes survives its start", "statement": "After any successful load and any sequence of separate calls outside the memory the kernel takes when started (p_memsz of every PT_LOAD segment; init_size at the runtime address; image_size), everything a successful call placed is still in guest memory after the kernel has done as it likes with its own memory. Nothing at or above kernel_end is taken, so that kernel_end on is safe, exactly if: no ELF segment without file bytes ends above kernel_end; the bzImage (protocol 2.10 on) runs with its init_size below the end of its payload; the Image states an image_size not larger than the file. Otherwise kernel_end is not safe: for each format there is an accepted image that overwrites a device tree placed there.", "quantifier": "every image, memory, offset, sequence of calls and reports, and every behaviour of the started kernel within its memory", "why_tests_cant": "A test starts no kernel and checks one image; the claim ranges over all images, later calls and everything a kernel may do with its memory.", "anchors": ["src/loader/elf/mod.rs: load (kernel_end)", "src/loader/bzimage/mod.rs: load (kernel_end)", "src/loader/pe/mod.rs: load (kernel_end)", "src/loader/mod.rs: KernelLoaderResult::kernel_end"]}
{"id": "C112", "title": "The way data takes into the guest does not matter", "statement": "Two successful calls that put the same pieces leave the same guest memory, and a whole program in which one is exchanged for the other reports the same elsewhere and ends with the same memory. A device tree given as a file to load_dtb or as boot parameters to FdtBootConfigurator leaves the same guest memory if both accept; load_dtb alone refuses trees over 2 MiB, FdtBootConfigurator alone refuses trees after which no further byte of memory follows, and there is no other difference. LinuxBootConfigurator and FdtBootConfigurator given the same parameters leave the same memory whatever they report, and succeed or fail together.", "quantifier": "every program of loading calls, memory, image source without faults, boot parameters, both memory strategies", "why_tests_cant": "The claim compares two programs on every memory layout, blob and surrounding sequence of calls; tests compare a few.", "anchors": ["src/loader/pe/mod.rs: load_dtb", "src/configurator/fdt.rs: FdtBootConfigurator::write_bootparams", "src/configurator/x86_64/linux.rs: LinuxBootConfigurator::write_bootparams"]}
{"id": "C113", "title": "What debug formatting prints identifies what is printed", "statement": "The {:?} output (shown by unwrap, expect, assert_eq! and logs) of two errors of a kind is the same only if the errors are the same, including the key of a missing value; that of two load results or two boot structures is the same exactly if they are == (all fields agree); that of two command lines is the same exactly if boot arguments, init arguments and capacity agree (== compares less). The output is always one line without control characters, whatever text a key or command line holds.", "quantifier": "every error, key text, command line, load result, structure value, and every table of printable characters of the standard library", "why_tests_cant": "Tests compare a few formatted values; that no two different values print alike, and that no text breaks the line, ranges over all values and all texts.", "anchors": ["src/loader/mod.rs: Error, KernelLoaderResult (derive Debug)", "src/loader/elf/mod.rs: Error, PvhBootCapability", "src/loader/bzimage/mod.rs: Error", "src/loader/pe/mod.rs: Error, arm64_image_header, riscv64_image_header", "src/configurator/mod.rs: Error", "src/cmdline/mod.rs: Error, Cmdline", "src/loader_gen/x86_64/bootparam.rs", "src/loader_gen/x86_64/start_info.rs"]}
{"id": "C114", "title": "Threads that race for the same guest memory", "statement": "When several threads load into overlapping areas of guest memory, and something else writes too, then at every moment every byte is the original one, one the other writer stored, or one that some call is meant to put there; when all have finished each byte is as one of the threads alone (or the other writer alone) would leave it. If the threads agree about every address two of them write (for instance several loading the same image to the same place), every schedule leaves guest memory exactly as running them one after the other, and as a single call does if the calls are the same.", "quantifier": "every number of threads, every list of calls in each, every interleaving of their byte stores and of those of another writer, every subset of the stores visible at a moment, every guest memory", "why_tests_cant": "The number of schedules and of moments to look is unbounded; a test sees a few of them.", "anchors": ["src/loader/elf/mod.rs: Elf::load", "src/loader/bzimage/mod.rs: BzImage::load", "src/loader/pe/mod.rs: PE::load, load_dtb", "src/loader/mod.rs: load_cmdline", "src/configurator/x86_64/linux.rs: write_bootparams", "src/configurator/x86_64/pvh.rs: write_bootparams"]}
{"id": "C115", "title": "Implementations of guest memory and image source that answer alike are interchangeable", "statement": "If two implementations of guest memory, or of the image source, answer every request alike, any sequence of loads, load_cmdline and write_bootparams calls, with own steps of the VMM in between, gives the same results with both and leaves them in corresponding states. A call changes guest memory only inside the ranges it passes to guest memory; so dirty tracking wrapped around any guest memory (noting every range it is asked to write) is not noticed by any call, and every byte that changed is in a noted range. This holds for vm-memory with every source.", "quantifier": "every pair of implementations and every relation between their states, every sequence of calls with every argument, every state, every guest memory that changes bytes only where asked, successful and failing calls", "why_tests_cant": "Implementations of the generic parameters are written by users of the crate; a test uses one or two of them.", "anchors": ["src/loader/mod.rs: KernelLoader::load, load_cmdline", "src/configurator/mod.rs: BootConfigurator::write_bootparams", "src/loader/elf/mod.rs: Elf::load", "src/loader/bzimage/mod.rs: BzImage::load", "src/loader/pe/mod.rs: PE::load, load_dtb"]}
{"id": "C116", "title": "A command line with the capacity the kernel announces is never cut off", "statement": "If a builder of capacity at most limit + 1 (the capacity counts the terminating NUL) has its line loaded with load_cmdline, among any calls on separate areas, a guest that takes at most limit characters takes the whole line; with a larger capacity it takes a prefix of it. For a bzImage the limit is the cmdline_size field of the setup header that load returns, which is the one in the file.", "quantifier": "every capacity, constructor and history of builder calls, every limit, every sequence of calls on separate areas, every image", "why_tests_cant": "Off-by-one mistakes about the NUL show only at one length for each capacity; the claim is about all lengths, capacities and histories.", "anchors": ["src/cmdline/mod.rs: Cmdline", "src/loader/mod.rs: load_cmdline", "src/loader/bzimage/mod.rs: BzImage::load", "src/loader_gen/x86_64/bootparam.rs: setup_header.cmdline_size"]}
{"id": "C117", "title": "An arm64 or riscv64 boot hands Linux exactly what the VMM meant", "statement": "A VMM loads an Image and performs any calls on separate areas in any order, among them writing a device tree blob through FdtBootConfigurator or load_dtb. The blob, by whatever writer, describes memory banks, ramdisk and, as bootargs, the serialised command line of a builder with a capacity of at most the kernel's limit; its address is a multiple of 8 and its size at most 2 MiB. If the calls report success, Linux, reading the tree in guest memory, finds exactly those banks, that ramdisk and that command line; the parameters it parses are the ones inserted and the virtio-mmio devices it creates are the ones added; and the kernel is whole at its text offset from a multiple of 2 MiB.", "quantifier": "every Image, guest memory, blob, tree (any other nodes and properties), memory map, builder history, set and order of separate calls, both access backends, both architectures", "why_tests_cant": "The claim is about every tree, blob, image and order of calls, and about what a kernel makes of guest memory afterwards.", "anchors": ["src/loader/pe/mod.rs: PE::load, load_dtb", "src/configurator/fdt.rs: FdtBootConfigurator::write_bootparams", "src/cmdline/mod.rs: Cmdline"]}
{"id": "C118", "title": "A started kernel still finds exactly what the VMM meant", "statement": "The boots of C107, C108, C110 and C117, with every call other than loading off the memory the kernel takes when started (in particular: at or above kernel_end, when nothing at or above it is taken): after the kernel has done as it likes with the memory it was loaded into and the memory it takes, what it reads through the zero page, the PVH start info or the device tree is still exactly that memory map, ramdisk and command line, with the parameters inserted and the virtio-mmio devices added.", "quantifier": "every image, guest memory, memory map, module list, device tree, builder history, set and order of separate calls off the memory taken, and every behaviour of the started kernel within its memory; both access backends", "why_tests_cant": "What a kernel does with its own memory is not under the control of a test; the claim is about all of it, after every order of calls.", "anchors": ["src/loader/bzimage/mod.rs: BzImage::load", "src/loader/elf/mod.rs: Elf::load", "src/loader/pe/mod.rs: PE::load", "src/loader/mod.rs: load_cmdline", "src/configurator/x86_64/linux.rs", "src/configurator/x86_64/pvh.rs", "src/configurator/fdt.rs"]}
{"id": "C119", "title": "The exported constants mean to Linux, Xen and ELF tools what their names say", "statement": "The constants exported with the generated structures are exactly the published numbers, none wrong, missing or invented, one per name and within its type. Raising or lowering one flag of a family in any word changes that flag and no other; a word made of any selection of flags tells exactly the selection and fits its field. Different tags of a family, and different notes (owner and type), never share a value, but for the two MIPS names published with the same number; the kinds of PC are numbered as published, below the advertised count; the segment types fall into the ranges reserved for them. In any zero page the disk records, signatures and counts are where the offset and size constants put them, the tables having exactly the advertised number of entries; in any ELF header the identification bytes are at the EI_ indices.", "quantifier": "every exported constant, word, selection of flags, pair of tags or notes, table index and page content", "why_tests_cant": "The statements range over all words, all selections of flags and all page contents, and over every pair of several hundred names.", "anchors": ["src/loader_gen/x86_64/bootparam.rs", "src/loader_gen/x86_64/start_info.rs", "src/loader_gen/x86_64/elf.rs"]}
{"id": "C120", "title": "Debug output over several lines identifies what is printed", "statement": "What {:#?} prints of an error, a command line, a load result or one of the exported structures differs exactly when the value differs (in the sense of C113), consists of lines without control characters whatever bytes the value holds, and says word for word what {:?} says: undoing indentation and line breaks, knowing nothing of the value, gives the one-line form.", "quantifier": "every error, command line, load result and structure content, every pair of them, every table of printable characters", "why_tests_cant": "Values embed arbitrary text and 4096-byte structures; that no two of them print alike is a statement about all pairs.", "anchors": ["src/cmdline/mod.rs: Error, Cmdline", "src/loader/mod.rs: Error, KernelLoaderResult", "src/loader/elf/mod.rs: Error, PvhBootCapability", "src/loader/bzimage/mod.rs: Error", "src/loader/pe/mod.rs: Error", "src/configurator/mod.rs: Error", "src/loader_gen/x86_64/bootparam.rs", "src/loader_gen/x86_64/start_info.rs", "src/loader_gen/x86_64/elf.rs"]}
{"id": "C121", "title": "Every selection of target and features gives a complete crate offering what is documented", "statement": "For every target and every selection of features, compiled code names only items that exist, each name meaning one thing; every match has exactly one arm for each variant there is; exactly one of the per-architecture alternatives is compiled; what the documentation offers is reachable, under the documented path, exactly on its targets and with its features (as Cargo.toml closes them), and what is private stays so; the benchmarks and the documentation's example find what they use and have one function to run (none on targets that are neither x86 nor arm64 nor riscv64 with a feature on); and whatever a call of the API answers, its caller can name: the error variant, the type inside it, the fields of the result.", "quantifier": "every target architecture, every set of requested features, every path offered, every call, memory and image", "why_tests_cant": "A test suite is compiled for one target and one selection of features at a time; the rest is not even compiled.", "anchors": ["Cargo.toml: [features]", "src/lib.rs", "src/loader/mod.rs: Error, KernelLoaderResult", "src/loader/elf/mod.rs", "src/loader/bzimage/mod.rs", "src/loader/pe/mod.rs", "src/configurator/mod.rs: Error", "src/configurator/x86_64/mod.rs", "src/loader_gen/mod.rs", "src/loader_gen/x86_64/mod.rs", "benches/main.rs", "benches/fdt.rs", "benches/x86_64/mod.rs"]}
{"id": "C122", "title": "A call can be repeated any number of times", "statement": "A loading or writing call that succeeds succeeds however often it is repeated, and guest memory is as after the first time. A program that runs calls one after the other, each any number of times, stopping at the first failure, gets to its end exactly if each call succeeds on the memory as it was at the beginning, and how often each was run leaves no trace. In particular the repository's benchmarks for x86, arm64 and riscv64 run to their end whatever number of iterations criterion chooses (the bzImage one exactly if the file is an acceptable image that fits), leaving the documented start info and memory map.", "quantifier": "every call, every number of repetitions, every sequence of calls, every memory, every bzImage file", "why_tests_cant": "The number of iterations is chosen by the harness at run time; that none of them behaves differently is a statement about all of them.", "anchors": ["benches/main.rs", "benches/fdt.rs", "benches/x86_64/mod.rs", "src/loader/mod.rs: KernelLoader", "src/configurator/mod.rs: BootConfigurator"]}
{"id": "C123", "title": "Every guest memory that can be built is one the other claims cover", "statement": "GuestMemoryMmap::from_ranges accepts exactly the non-empty lists of non-empty ranges that end below 2^64 and are in order without overlaps; a refusal names something that is wrong; it never panics. In the memory built exactly the listed addresses exist, each in one region, all bytes are zero and last_addr is the end of the last range, and it meets the well-formedness condition under which the claims about loading and writing are stated (which is: no empty region, none reaching 2^64). Finding the region of an address by binary search gives the region that has it, for every table and address. How the same addresses are cut into ranges changes nothing.", "quantifier": "every list of ranges, every address, every search that keeps the contract of slice::binary_search", "why_tests_cant": "Every test in the repository builds one memory with one region from 0.", "anchors": ["src/loader/mod.rs: load_cmdline", "src/loader/elf/mod.rs: tests::create_guest_mem", "src/configurator/x86_64/linux.rs", "src/configurator/x86_64/pvh.rs", "src/configurator/fdt.rs", "benches/fdt.rs: create_guest_memory"]}
{"id": "C124", "title": "Errors and debug output have the documented wording", "statement": "Every error of the crate has exactly the Display text, the Debug text and the source() text that the sources give it (tables of all of them; none is missing), MissingVal with any key and the PVH capability with any address included. Debug output of strings shows printable ASCII as it is and escapes quote, backslash and all control characters as Rust does; command lines, load results and structures show the name and the value of every field, a structure field with the name of its type.", "quantifier": "every error, every key, address, text, command line, load result and field value", "why_tests_cant": "The tests format a handful of the seventy errors; keys, addresses and field values are unbounded.", "anchors": ["src/loader/mod.rs: Error", "src/loader/elf/mod.rs: Error, PvhBootCapability", "src/loader/bzimage/mod.rs: Error", "src/loader/pe/mod.rs: Error", "src/configurator/mod.rs: Error", "src/configurator/x86_64/linux.rs: Error", "src/configurator/x86_64/pvh.rs: Error", "src/configurator/fdt.rs: Error", "src/cmdline/mod.rs: Error, Cmdline"]}
