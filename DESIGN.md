# Formal model of rust-vmm/linux-loader: design

Technique: a hand-written executable Gallina model of the Rust code (Coq 8.16.1, standard library only),
small independent specifications, and theorems proved for all inputs, memories, sources and histories.
The code is never executed here; the tie between model and code is the file:line citation on each definition.

## 1. Layout of the development (`rocq/theories`)

| file | contents |
|---|---|
| `Base.v` | bytes, little-endian codecs, 64-bit checked/unchecked arithmetic, `outcome` = `Ok / Err / Panic` |
| `Layout.v` | `repr(C)` / `packed` struct layouts of `src/loader_gen`, field offsets computed from the declarations |
| `Constants.v` | every `pub const` of `src/loader_gen/x86_64/{bootparam,start_info,elf}.rs` |
| `Mem.v` | guest memory (vm-memory): regions, `last_addr`, `checked_offset`, `write_slice`, `read_exact_volatile_from` |
| `Io.v` | the image source (`Read + ReadVolatile + Seek`) with short reads and faults chosen by oracles |
| `Text.v`, `Cmdline.v` | Rust strings as used here; `src/cmdline/mod.rs` |
| `Utf8.v` | the same once more over UTF-8 bytes: std's decoding, `trim`, `match_indices`, slicing (with its panic), and the builder on them |
| `Loader.v` | errors, `KernelLoaderResult`, loader monad, `load_cmdline` (`src/loader/mod.rs`) |
| `Elf.v`, `BzImage.v`, `Pe.v` | the three `KernelLoader::load`, `parse_elf_note`, `align_up`, `load_dtb` |
| `BootParams.v`, `Configurators.v` | `src/configurator` (the `BootParams` builder; Linux, PVH and FDT `write_bootparams`) |
| `Display.v` | `Display` texts and `Error::source` of every error type, `Display` of `PvhBootCapability` |
| `DebugText.v` | `{:?}` texts (`derive(Debug)`) of every error type, `Cmdline`, `KernelLoaderResult` and the structures |
| `Pretty.v` | the shapes that `derive(Debug)` hands over, and std's `{:?}` and `{:#?}` printers of them |
| `Cfg.v` | every `#[cfg(..)]`, Cargo.toml's `[features]`, the modules, re-exports, `match` arms and references they govern, and name lookup |
| `Benches.v` | benches/main.rs, benches/fdt.rs, benches/x86_64/mod.rs |
| `GuestMap.v` | vm-memory's `GuestMemoryMmap::from_ranges` and `find_region` (dependency; called at src/loader/mod.rs:215, 246 and elsewhere) |
| `ElfHelpers.v` | `ELF*_ST_*`, `ELF*_R_*` of `src/loader_gen/x86_64/elf.rs` |
| `SpecMem`, `SpecFile`, `SpecCmdline`, `SpecElf`, `SpecBz`, `SpecPe`, `SpecBoot` | specifications at the level of guest addresses, file offsets and texts; literal ABI offsets; they do not use the model's functions |
| `SpecAbi.v` | literal ABI tables (Linux boot protocol, Xen start info, ELF, arm64/riscv64 Image) |
| `SpecTrace.v` | replaying single-byte stores, the planned pieces of every call, interleavings of threads |
| `Source.v` | the loaders over an arbitrary source, shown equal (by conversion) to those above when the source is `reader` |
| `Ask.v` | every loader and configurator once more, with the source *and* guest memory left open: a program that asks questions (seek, read, copy to guest, `checked_offset`, `write_slice`, `last_addr`) and goes on according to the answers; `vm_world` is the instance of the other files |
| `UserText.v` | the builder's generic methods with `T: AsRef<str>` left to the caller's code, which may answer differently each time or panic |
| `RawIo.v` | a source answering single `read` calls (interrupted, short, failed) with std's `read_exact` loop and vm-memory's EINTR retry |
| `SpecDecide.v` | the report the documentation promises for each call, as rules (no implementation vocabulary) |
| `SpecEffect.v` | the bytes each call leaves in guest memory, successful or not, as rules |
| `Endian.v` | the PE loader with the host's byte order as a parameter |
| `SpecLife.v` | from a constructor call to guest memory, as rules |
| `SpecTalk.v` | a load as a conversation with an arbitrary source (questions, answers), as rules |
| `SpecUser.v` | `insert_multiple` on texts supplied by user code, as rules |
| `SpecAsk.v` | the same with guest memory as a second partner of the conversation |
| `SpecHistory.v`, `SpecParams.v` | the command line builder and the boot parameter builder as rules over whole call histories |
| `SpecLaws.v` | the argument a well-formed call stands for, sequences of accepted calls, interleavings |
| `SpecUtf8.v` | well-formed UTF-8 (Unicode table 3-7), command line histories over byte strings |
| `SpecMove.v` | a call compared with the same call in a larger guest, in another place, or done in another way |
| `Derived.v` | what `derive(PartialEq, Default)` generates for structures and load results |
| `Heap.v` | the ELF loader with the heap its vector takes (any source), the room of the builder's strings and of the lists of BootParams |
| `SpecDriver.v` | specification, not code of /repo: how Linux's virtio-mmio driver reads `virtio_mmio.device=` (`vm_cmdline_set`, `memparse`, `sscanf`) |
| `SpecGuest.v` | what Linux takes from a zero page or a PVH start info in guest memory, and how a VMM fills the crate's structures |
| `SpecSpace.v` | memory a kernel takes when started: p_memsz of all PT_LOAD segments, pref_address/init_size, image_size |
| `SpecDisplay.v` | key words every error message must mention, from the documentation of the error variants |
| `SpecRace.v` | what a thread may put where, threads that agree about shared addresses |
| `SpecSwap.v` | implementations of guest memory and source that answer alike, a VMM's session of calls in any world, dirty tracking |
| `SpecDtb.v` | Device trees, their flattened form as a relation (any writer), a kernel's reader of guest memory, what Linux takes from a tree, the tree a VMM describes its machine with, and a writer |
| `SpecConstants.v` | the numbers Linux, Xen and the ELF standard publish, family by family |
| `SpecTwin.v` | the bytes of an ELF or bzImage file that a loader may look at |
| `SpecKernel.v` | how Linux splits its command line into parameters (`next_arg`, `parse_args`), and what each builder call should contribute |
| `SpecVmm.v` | a VMM as a list of calls on one guest memory: `perform`, and for each call the pieces it `writes` and the addresses it `touches` |
| `Fixtures.v`, `Conformance.v` | the crate's test files; its unit tests, doc tests and compile-time assertions run on the model |
| `*_proofs*.v`, `Demo_elf.v` | lemmas; demonstration images |
| `Props_Cmdline` C01-C17, `Props_Loader` C18-C19, `Props_Elf` C20-C33, `Props_Bz` C34-C38, `Props_Pe` C39-C42, `Props_Config` C43-C46, `Props_Boot` C47-C52, `Props_Abi` C53-C55, `Props_Vmm` C56-C60, `Props_Env` C61, `Props_Boot_e2e` C62-C64, `Props_Display` C65, `Props_ElfHelpers` C66, `Props_Fault` C67, `Props_Bytes` C68, `Props_Place` C69-C71, `Props_Trace` C72-C73, `Props_Raw` C74-C75, `Props_Kernel` C76-C77, `Props_Decide` C78, `Props_History` C79, `Props_Params` C80, `Props_Host` C81-C85, `Props_Effect` C86, `Props_Endian` C87, `Props_Life` C88-C89, `Props_Talk`, `Props_Talk2` C90-C94, `Props_Laws` C95, `Props_LawsBoot` C96, `Props_Utf8` C97, `Props_Twin` C98, `Props_Ask` C99, `Props_User` C100, `Props_Move` C101-C103, `Props_Derived` C104, `Props_Heap` C105, `Props_Driver` C106, `Props_Guest` C107, `Props_GuestPvh` C108, `Props_GuestCases` (cases of both), `Props_Fail` C109, `Props_GuestElf` C110, `Props_Space` C111, `Props_Routes` C112, `Props_Debug` C113, `Props_Race` C114, `Props_Swap` C115, `Props_Limit` C116, `Props_Dtb` C117, `Props_Started` C118, `Props_Constants` C119, `Props_Pretty` C120, `Props_Cfg` C121, `Props_Bench` C122, `Props_GuestMap` C123, `Props_Texts` C124 | the property theorems (named `Cnn_...`) and, beside them, `Cnn_applies`-style examples that meet their hypotheses |

`MANIFEST.json` lists, for every property, all its theorems.

## 2. Modelling decisions

* **Numbers** are `N`; every place where the Rust code can overflow carries an explicit 2^64 (or 2^32) check.
  `checked_*` gives the `None` branch; an unchecked `+`/`-` goes through `uadd`/`usub`, which panics when
  the build has overflow checks and wraps when it has not (the model is parametrised by `build`,
  so theorems hold for debug and release).
* **Results** are `Ok | Err e | Panic p`; out-of-fuel is a distinguished panic, proved unreachable (C30).
* **Strings** are lists of Unicode code points; `len()` is the UTF-8 length; byte indices of an ASCII separator
  are char boundaries, so slicing at them is list splitting (proved against a byte-level model: C97). `trim` uses the Unicode White_Space set.
* **Guest memory** is a list of regions plus a total byte function; accesses walk regions as vm-memory does.
  vm-memory's source is not in the sandbox; its contract is modelled from its documentation and public API, with two
  strategies (`backend`): `TryAccess` (retry inside a region after a short read) and `GetSlices` (one read per region
  slice). Theorems hold for both unless stated. Well-formed memory = every region non-empty and ending below 2^64
  (what `GuestRegionMmap::new` enforces; the order and disjointness that `from_regions` also enforces are not needed).
* **Image sources** hold a finite byte list, a position, a maximal seekable position (2^63-1 for files, 2^64-1 for
  `Cursor`), and two oracles indexed by the operation number: how many bytes a single `read_volatile` may return
  (short reads), and, separately for seeks and reads, whether the operation fails. Soundness theorems hold for every
  oracle; completeness theorems exclude faults explicitly. `read_exact` is one operation (all or nothing);
  C74 shows that this loses nothing against single, interruptible `read` calls.
* **Store log**: guest memory carries the list of single-byte stores made so far (`gm_log`), a ghost that no modelled
  function reads. C72 and C73 speak about every prefix, subset and interleaving of these stores.
* **ByteValued structs** are their bytes; fields are read through the computed layout, and the specifications use
  the literal ABI offsets. C68 shows that this representation is exact (no padding).
* **Histories**: builder calls are a list of operations (`run_ops`), BootParams calls likewise, VMM calls are `perform_all`.
* `usize` is 64-bit, except in Host.v, which has the x86 parts again with the number of values of `usize` as a parameter
  (C81-C85; the arm64 and riscv64 parts only exist on 64-bit hosts). Little-endian host, except in Endian.v (C87; x86 and riscv64 are little-endian).

## 3. Trusted base

* Coq's kernel (8.16.1), `coqchk`.
* `Print Assumptions` for every theorem listed in MANIFEST.json: *Closed under the global context* (no axioms at all).
  `coqchk` over the whole library prints seven names `Coq.ssr.ssrunder.Under_rel.*`: opaque-module items of the standard
  library's ssreflect part, loaded with the library; no theorem here depends on them.
* The faithfulness of the model to the source, as cited; the contracts of vm-memory, std `Read/Seek`, `str::trim`,
  `CString::new`, `format!` on integers, the growth of `Vec` and `String` (C105) as modelled; for C76, Linux's `next_arg`/`parse_args` as written in SpecKernel.v; for C106, its virtio-mmio driver's `vm_cmdline_set` as written in SpecDriver.v; for C107, C108 and C110, its early boot code as written in SpecGuest.v; for C117, its device tree code as written in SpecDtb.v; for C111, the memory a kernel takes as written in SpecSpace.v.
* Conformance of the model: `Conformance.v` runs every assertion of the crate's unit tests and doc tests (with the
  binary files of /repo, `Fixtures.v`) on the model, for both build profiles and both copying strategies; all of them hold. Left
  out: the tests that need a downloaded bzImage or vmlinux.
* Modelled: every function of `src/cmdline/mod.rs`, `src/loader/{mod,elf,bzimage,pe}`, `src/configurator/{mod,fdt,x86_64}`,
  the structures and inline functions of `src/loader_gen`.
* Which items exist on which target is modelled in `Cfg.v` alone; the other models contain both architectures' code at once.
* Not modelled: `Clone` of plain data, `BootParams` type
  parameters (a list is its bytes), memory allocation failure below 2^63 bytes, criterion. Concurrent writers are treated at the granularity of single-byte stores (C73); the hardware memory model is not modelled.

## 4. Findings about the code (each is a theorem or example in the files named)

1. `Cmdline::try_from` does not validate: non-ASCII, control characters and NUL get in (`C07_try_from_unvalidated`, C09).
2. `==` on `Cmdline` identifies different command lines that cannot be serialised (`C17_unserialisable_conflated`).
3. Serialise-then-parse is unstable next to exotic white space (`C13_other_white_space_refuted`).
4. With several PT_NOTE segments the last one decides; a found PVH entry can be lost (`C31_elf_note_lost_refuted`).
5. No PT_NOTE segment and no offset: PvhEntryIgnored rather than NotPresent (C29/C31 statements).
6. `kernel_end` can be below loaded bytes when p_memsz < p_filesz (`C32_elf_short_memsz_refuted`); bss is not zeroed or
   checked against memory; EI_CLASS and e_machine are not checked; the high-memory check uses e_entry without the offset.
7. `align_up` overflows near 2^64: debug panic, release 0 (`C33_align_up_overflow_refuted`, `C33_align_up_exact`); unreachable from load (C30).
8. bzImage: the byte count of the header read is ignored (`C38_bz_short_header_refuted`); `code32_start` is cut to 32 bits (C36);
   the high-memory check uses the file's code32_start even when an offset is given (C34).
9. PE: `kernel_end` ignores the header's image_size (C39).
10. Boot parameters ending exactly at the end of guest memory are refused, PVH modules are not (`C46_*`).
11. A failed add_section/add_module turns an absent list into an empty one, making PVH writing fail later (`C50_failed_add_refuted`).
12. add_section/add_module panic when an element would end 2^63 bytes or more after the list start (`C51_add_panics_iff`).
13. `parse_elf_note`'s unchecked `p_offset + read_size` cannot overflow for files below 2^63 bytes (C30).
14. `insert_init_args("")` on empty init arguments needs 4 free bytes though it leaves no trace (C04).
15. e_phnum = 0 with e_phoff past the end of file is accepted (C27 statement).
16. bzImage/PE `MemoryOverflow` and bzImage `Overflow` are unreachable (`C37_bz_error_list`, `C40_pe_error_list`).
17. `BootParams` fields are public, so contents without start address are constructible; only then can a failing add record the address (C50).
18. Zero-length copies to unmapped addresses depend on the vm-memory strategy (hence the `backend` is fixed in C61).
19. The boot configurator's Display omits the inner error (`C65_boot_message_alone_refuted`).
20. ELF and bzImage inner errors share "Overflow occurred..." texts; only the outer message tells them apart (C65).
21. PE reports both of its header seeks as SeekImageHeader (C67).
22. With slice-wise copying, a source that cuts reads short gets bytes written to wrong addresses before the call reports its error (`C72_needs_unbroken`).
23. The bzImage setup header is read by one `read_volatile` call outside any retry loop: an interrupted system call there fails the load (`C75_bz_header_not_retried`).
24. `insert` accepts values with a single double quote, empty keys and keys with quotes; the kernel reads these differently from what was
    inserted, e.g. a stray quote swallows the next parameter (`C76_stray_quote`, `C76_empty_key`, `C76_quote_in_key`). `insert_str("--")` turns
    later boot arguments into init arguments (`C76_lone_dashes`). Linux also stops at a quoted `"--"`, where `try_from` does not split (`C76_quoted_dashes`).
25. `try_from` trims blanks that belong to an open quotation and Unicode white space that Linux would not treat as such (`C77_open_quote`, `C77_exotic_space`).
26. On a 32-bit host: a segment with p_filesz = 2^32 is reported loaded with nothing copied (`C81_elf_unfit_refuted`); a bzImage longer than
    4 GiB is silently cut (`C82_bz_large_cut`); a boot parameter element 4 GiB after its list's start overwrites the first one (`C84_far_element_refuted`).
27. With overflow checks, a source that lies about positions (seeks and reads next to 2^64) makes `parse_elf_note` panic (`C92_never_panics_refuted`); files cannot (`C92_files_never_panic`).
28. `insert_multiple` asks each value twice, once to check and once to use it. A value whose `as_ref` changes its answer gets unchecked text past `valid_value` (`C100_check_bypassed`); the text is still trimmed, printable and within capacity (`C100_reachable`, `C100_capacity`).
29. An ELF image that loads nothing reports end 0 whatever its load offset (`result_moved`), and giving an ELF image the offset 0 is not the same as giving none: the notes are then not read (`C102_elf_default`).
30. vm-memory's two ways of moving bytes differ for an empty device tree, bzImage payload or module list at an unmapped address: refused by one, accepted by the other (`C103_slices_accept_more`, `C103_applies`).
31. `add_virtio_mmio_device` accepts requests Linux refuses or reads differently: interrupt 0 (no device), ids from 2^31 on (negative, `0xffffffff` is -1), registers past the end of the address space, repeated ids (`C106_interrupt_zero`, `C106_large_id`, `C106_past_the_end`, `C106_same_id`).
32. The crate writes zero pages whose memory map Linux does not use: fewer than two entries, or an entry that passes the end of the address space (`C107_one_bank`, `C107_past_the_end`); a non-zero `sentinel` in the page makes Linux drop the upper halves of addresses (`C107_sentinel`). Nothing in the documentation says so; `BootParams` and `boot_params` check nothing.
33. `kernel_end` is not the end of the memory the kernel takes: PT_LOAD segments without file bytes, a bzImage's `init_size` and an Image's `image_size` are not counted, so a device tree or command line put at `kernel_end` can be destroyed when the kernel starts (`C111_elf_end_refuted`, `C111_bzimage_end_refuted`, `C111_image_end_refuted`).
34. The two ways to hand over a device tree accept different trees: `load_dtb` refuses more than 2 MiB but takes a tree that ends with memory, `FdtBootConfigurator` has no size limit but wants one more byte of memory (`C112_device_tree`, `C112_only_file`, `C112_only_params`).
35. `Cmdline`'s `==` ignores the capacity and the split into boot and init arguments, its `{:?}` shows them: `assert_eq!` never fails on a difference only `{:?}` shows (`C113_cmdline_more`).
36. Neither `FdtBootConfigurator` nor `load_dtb` looks at the address or size of a device tree: one at an address that is no multiple of 8, or of more than 2 MiB, is written and Linux then refuses it (`C117_misplaced`).

## 5. Properties: what is modelled and how it is proved

* **C01** Cmdline state machine; invariant `serialised size <= capacity` by induction over any operation list from either constructor.
* **C02** case analysis of every operation: on `Err` the returned state equals the input state.
* **C03** refinement: history of accepted arguments vs. state, by induction; the spec is a join with single spaces.
* **C04** decision table of insert_str/insert_init_args against an independently stated fit predicate (iff for each outcome).
* **C05** decision table of insert plus the appended text.
* **C06** decision table of insert_multiple, first offending value; equality with insert for one value.
* **C07** invariant "all characters printable" by induction from `Cmdline::new`.
* **C08** from the definition of CString::new on UTF-8 bytes, any history.
* **C09** iff characterisation of as_cstring outcomes.
* **C10** try_from scan (non-overlapping matches) against the relational "first (possibly overlapping) occurrence with even quote count".
* **C11** iff on the size arithmetic (strings shorter than 2^63, as Rust guarantees); `C11_new_capacity` for `new`.
* **C12** corollary of C10/C11.
* **C13** proved for texts whose only white space is the space character; refuted in general (exotic white space). The English property was restated accordingly.
* **C14** relational grammar of the kernel's virtio_mmio.device parameter applied to the appended text; uniqueness of the canonical text and of decoding; injectivity corollary.
* **C15** decision table; maximality of the suffix.
* **C16** invariant: every unchecked addition is below 2^64 on reachable states, in both build modes.
* **C17** equivalence relation; bytes characterisation; `_refuted` lemma for "equal => same parts".
* **C18** memory frame lemma of write_slice.
* **C19** iff with range-mapped predicate; error classification.
* **C20** induction over program headers; overlay specification; all sources, also faulty ones.
* **C21** same induction; maximum specification.
* **C22** decision list on the first 64 bytes, memory equality.
* **C23** implication and memory equality.
* **C24** case analysis; error priority at the failing header.
* **C25** frame invariant over every outcome.
* **C26** Ok implies bounds.
* **C27** completeness for fault-free sources.
* **C28** induction: notes never parsed when an offset is given.
* **C29** note loop against the encoder of ELF notes (for every list of notes) and, for arbitrary bytes, against a relational scan, whose verdict is proved unique and to exist.
* **C30** fuel sufficiency and no overflow for every file shorter than 2^63.
* **C31** restated: one PT_NOTE segment: its entry is reported; several: the last decides; the lost entry is a concrete two-note image.
* **C32** proved under p_memsz >= p_filesz; refuted without.
* **C33** arithmetic on N with lor/land; exact characterisation of every outcome, including the overflow, in both builds.
* **C34** iff for fault-free, fully reading sources.
* **C35** memory frame + content.
* **C36** byte-level comparison of the header.
* **C37** decision list; frame for every source; complete list of reachable errors.
* **C38** restated: what holds for every source is proved, the rest refuted for short-reading sources.
* **C39** memory frame + content for both architectures.
* **C40** decision list; frame; complete list of reachable errors.
* **C41** completeness (iff) and the error for unbacked destinations.
* **C42** iff + frame.
* **C43** iff per outcome + frame, both configurators.
* **C44** overlay of three writes; disjointness corollary.
* **C45** decision list and frame.
* **C46** restated as the true rule (one byte of slack needed); proved for every memory, and a concrete witness.
* **C47** induction over the list of appended elements.
* **C48** byte-level characterisation of splice/resize.
* **C49** iff for each error.
* **C50** restated: what stays unchanged is proved for every state and, stronger, for every built state; the observable difference by witness.
* **C51** restated: exact condition for the panic (iff), for every address and element; witness.
* **C52** composition of C44, C47, C48.
* **C53** computed layouts compared with literal ABI tables (also the parts of the zero page and the ELF-32/64 structures the crate exports); general theorems: fields disjoint and inside, packed structures without gaps, for every structure type.
* **C54** field get/set laws on every layout and path, any list of assignments, composed with the memory write.
* **C55** composition of C36, C54, C43.
* **C56** one theorem over all eight calls: success = overlay of the pieces of SpecVmm; any outcome = frame; no panic.
* **C57** two-run (relational) proof through every primitive: contents of guest memory do not influence anything.
* **C58** induction over the call list with the frame of C56; `C58_all_in_place` for pairwise separate calls.
* **C59** permutation induction, adjacent swap by C56/C57.
* **C60** from C56 and C57: overlaying the same pieces twice.
* **C61** two-run simulation with different positions, read sizes and region splits; lifted to sequences.
* **C62** composition of C01, C03, C08, C18, C58.
* **C63** composition of C35, C36, C54, C58, C62's string predicate; the guest follows the pointer.
* **C64** composition of C20, C44, C54, C58.
* **C65** injectivity of the message functions (prefix reasoning for keys and hex numerals); printable by case analysis and C06's key check.
* **C66** bit-level arithmetic on N.
* **C67** fault oracle by kind of operation; each error traced to the operation that caused it, and conversely; ELF: the segments before the culprit are in place.
* **C68** structural induction on layouts: a decidable "solid" condition implies that integer leaves tile the structure; fields determine bytes.
* **C69** from C32, C35, C39 and C56; later calls by C58.
* **C70** induction over the list of formats; each attempt compared with the direct one by C57 and C61.
* **C71** composition of C39 and C58.
* **C72** the ghost store log: induction over both copy loops (faults allowed) gives "the stores made are a prefix of the planned ones"; every sub-collection of them, in any order, then only shows original or planned bytes.
* **C73** every call is a function of the region table only (relational proof, shared with C57) and stores only inside its area (C56 on adversarial contents); generic lemma on interleavings of lists of stores with disjoint addresses.
* **C74** the loaders are restated over an abstract source (equal to the originals by conversion); compositional simulation: each run on a raw source yields a list of whole-operation decisions under which the `reader` run is identical.
* **C75** relational proof that two sources with equal answers stay alike through every step; corollary of C74 and C61 for plain images.
* **C76** a specification of Linux's reader (SpecKernel.v); lemma: a text with balanced quotes and no lone `--` reads the same in front of any other; induction over the history of accepted calls.
* **C77** the same reader applied to the text after `--`; blanks around arguments do not matter after balanced text; composition with C10.
* **C78** rules per call (SpecDecide.v) built from the predicates of the format specifications; obeyed by case analysis over C19-C45; exclusive and exhaustive by `fine_no_error`, `error_det`, uniqueness of the last note and of the first offending header.
* **C79** rules per builder call (SpecHistory.v); each call obeys them by C04-C06, C11, C15; functional by uniqueness of trimming, of the first bad value and of the canonical device text; induction over the history.
* **C80** rules per list call (SpecParams.v); obeyed by the case lemma behind C47-C51; functional since `placed` determines the list; induction over the calls.
* **C81** Host.v parametrises Elf.v by `usz`; bisimulation with the 64-bit loader (`hagree`) as long as numbers fit, frame and panic-freedom by `sound`/`keeps` for any image; refutation on a concrete image.
* **C82** equality with `bz_load` when the size fits; for longer images a two-run comparison of the cut image with the long one.
* **C83** the checked additions agree on reachable states for both widths; composed with C79.
* **C84** rules with `usz` (SpecHost.v), equivalence in both directions as for C80; the ordinary rules imply them within the limit.
* **C85** boolean comparison of layouts by computation, lifted to every field path by induction.
* **C86** rules for effects (SpecEffect.v): the pieces a call gets round to given its report, poured in up to the first unmapped address; obeyed by a second pass over the loaders keeping the poured prefix; functional, so with C78 report and memory are determined; composed over sequences.
* **C87** Endian.v: fields as native integers followed by `from_le`; swapping a big-endian reading gives the little-endian one (induction on the bytes); equality with `pe_load`.
* **C88**, **C89** composition of C79 / C80 with C86: relation of rules (SpecLife.v) equivalent to running the crate, up to equality of memory at every address.
* **C90**-**C92** Source.v's loaders over an arbitrary `source` (any state, any answers); each call produces a list of events; inversion of the monadic code gives the rules of SpecTalk.v, the copy loop by induction on its fuel; confinement, exact placement and panic-freedom are derived from the rules alone.
* **C93** a logical relation `follows` between runs on two sources, closed under bind; every loader is related to itself.
* **C94** counted from the rules of C90-C92: every copying read moves on or ends the copy, every note is at least 12 bytes. `C9x_..._decided` (same file) shows that the rules admit one report and one memory per conversation.
* **C95** from C79's rules: an accepted sequence leaves the two folds of its arguments, text only grows, so acceptance is equivalent to the final text fitting.
  `C95_blank_init_refuted`: a blank `insert_init_args` is the one call whose acceptance depends on the order, because it reserves room for a separator it does not write.
* **C96** section calls read and write only the section fields (likewise modules), so histories project; disjoint `placed` elements commute pointwise, hence any permutation. `C96_overlap_refuted`: overlapping elements do not commute.
* **C97** every byte-level string function is shown to commute with the encoding of characters (decoding forwards and backwards, trimming, searching, slicing at a match is on a boundary); the builder's calls then commute too, and C79 finishes. `C97_utf8`: the encodings are exactly the byte strings of the Unicode table. `C97_slices_can_panic` shows that the modelled slices do panic elsewhere.
* **C98** a relation between two runs on two contents ("same answer, same memory, same place"), kept by every step whose reads stay inside the bytes the specification lists; the proof obligations are that every read does. `C98_note_overhang` shows that the 19 bytes after a note segment cannot be left out, `C98_trailing_failed_refuted` and `C98_bz_trailing_refuted` that the hypotheses of `C98_elf_trailing` are needed.
* **C99** `exec` of a program against the rules of SpecAsk, by induction over the program (`exec_path`) and one step lemma per question; assumed of the source only that reads give no more bytes than asked for, of guest memory nothing. `C99_vm_*` and `C99_files` show that with vm-memory's guest memory these programs are the functions of Source.v, Elf.v, BzImage.v, Pe.v, Loader.v and Configurators.v. `C99_pe_overflow`: a guest memory that accepts ranges past 2^64 makes `MemoryOverflow` of the PE loader reachable.
* **C100** `as_ref` is an arbitrary function from user state and value to new state and text or panic. `insert_multiple` is matched exactly (iff) to the rules of SpecUser; every call is a plain call on some text or changes nothing (`C100_one_call`), hence `reachable` is an invariant of every history; the questions asked are counted with a logging user state.
* **C101** A success stays a success, with the same report and the same pieces written, when guest memory has more addresses: by the rules of C78 (each `Ok` rule asks only that addresses exist) and C56. Whole sequences by induction.
* **C102** Guest memory and all addresses the caller passes moved up by `d`: same error, or the same result `d` higher, and guest memory afterwards moved likewise, also after failures. By the rules of C78 and C86, each shown invariant under the move. `room_for` says that no address leaves the 64-bit range; a bzImage or PE image without an offset is covered through `C102_defaults`, an ELF image through `C102_elf_default`.
* **C103** The two vm-memory strategies (no empty piece, source without short reads) and the two build profiles (any source) give equal reports and equal memory, call by call and for sequences.
* **C104** `derived_eq`/`default_over` written once over layouts (`ty`), as `derive` expands them (`default_over` also keeps what the memory held between the fields). By induction on the layout: equal exactly if all integer fields are equal, default fields all 0; for the crate's structures, which have no padding (`solid`, as in C68), equal exactly if the bytes are equal, default exactly the zero bytes. For load results, the header is whole after every successful load (C21, C38, C39).
* **C105** `helf_load` is `gelf_load` (Source.v) with a heap counter; erasing the counter gives `gelf_load` back (`C105_same_load`). The invariant says the room is 0, 4 or 8*2^j and grows only when full. Growth of `Vec` and `String` is std's (double, at least 4 elements or 8 bytes), part of the trusted base; temporaries made by `format!` are not counted. The room of `BootParams`' lists is followed the same way through `resize` and `collect`.
* **C106** The text of one accepted device is read back by `vm_cmdline_set` (`set_device`: digits of `fmt_dec`/`fmt_hex` through `kdigits` modulo 2^64, the suffix through `memparse`); then induction over the history (`adds_tells`) into C76. `C106_devices_any` gives Linux's reading with no requirement on the numbers; the examples show what is accepted by the builder and refused or misread by Linux.
* **C107** `linux_page` is the zero page a VMM builds with the crate's structures (any page, the returned header, assignments of named fields); its fields are read back by the places of SpecAbi.v (C53), the page and the command line are in memory after any separate calls (C58), the text is read up to its NUL; then C76 and C106 give parameters and devices. The published layout and the crate's declared structures are independent: the page is written by field name and read by published offset.
* **C108** The same for PVH: start info, memory map entries and modules written by `write_bootparams` in three separate areas.
* **C109** Read off the conversations of SpecTalk.v (C90-C92) by induction over their rules: a failing answer can only be the last one, and the report names its kind. It settles, for every source, the converse direction of C67.
* **C110** As C107, with an ELF kernel loaded at any point of the sequence and a setup header the VMM made itself.
* **C111** SpecSpace.v says, from the bytes of the image file, which memory a started kernel takes. Survival from C58 and the frame of each call; for each format the exact condition under which nothing at or above kernel_end is taken, and an image for which it fails.
* **C112** From C56 (a successful call leaves the old memory with its pieces on top), blindness of every call to guest contents, and the acceptance conditions C42 and C43.
* **C113** DebugText.v models what `#[derive(Debug)]` prints: errors, `Cmdline`, `KernelLoaderResult`, and generically every structure of unsigned integers, arrays and structures. Every printed form can be taken apart again (a number ends before a non-digit, an escaped character is read in one way), by induction over texts and over structure types; for strings this holds for every table of printable characters of the standard library.
* **C114** The single-byte stores of C72/C73 again, without the premise that threads keep apart. A mixture of store lists leaves at each address what one of the lists alone leaves there (induction over the mixture); lists that agree wherever two of them store can be mixed in any order.
* **C115** On the open-world model of C99: a relation kept by every operation is kept by every call and every session (induction over conversations); a guest memory that changes bytes only where it is asked to, changes them only in the ranges a wrapper can note. vm-memory's guest memory is shown to be one.
* **C116** C01 (capacity), C58 (the line is in place) and C36 (the returned header is the file's) together, against a guest that reads at most a given number of characters (`text_at` of SpecGuest.v).
* **C117** The reader is shown to invert the flattening relation by induction on it (Dtb_proofs.v), the writer to produce flattened forms of every tree (Dtb_proofs2.v); with C71 (the blob is in place), C76 and C106 this gives what Linux has.
* **C118** C111 carries every piece over to the memory of the started kernel; the views of C107, C108, C110 and C117 are functions of those pieces.
* **C119** Every exported constant is in Constants.v; tables are compared by computation, and the statements about all words, selections, tags and pages follow by reasoning over the families.
* **C120** The shape each `derive(Debug)` hands to the formatter is modelled once; std's two printers are functions of it. Undoing the indentation and the line breaks, without knowing the shape, gives the one-line form (induction on shapes), to which C113 applies.
* **C121** Every `#[cfg]` and every line that names a gated item is an entry of a table (`Cfg.v`); names are looked up through modules, `pub use` and globs, the features in force are computed from Cargo.toml's table. Any target and any request agree, on all the guards can ask, with one of 25 cases (proved, with features as the least set closed under what Cargo.toml says), and those are evaluated; the error variants of each call come from its own model. Taken on trust: private items count as visible to the whole crate, items without a `cfg` of their own are listed only when something refers to them or the documentation names them, `cfg(test)` is left out. Programs outside of the crate (the benchmarks, the front page's example) are references too: `C121_users`; `C121_users_main` shows that with a feature on they have nothing to run on targets other than x86, arm64 and riscv64.
* **C122** The bodies of the benchmarks are calls of C56-C60; by induction on the number of repetitions, with C57 (contents do not matter) and C60 (repeating changes nothing). The benchmarks of /repo/benches are modelled in `Benches.v`; the downloaded bzImage is any file.
* **C123** `GuestMap.v` models vm-memory's `from_ranges` and its region search (binary search) from its documented behaviour; acceptance, contents and look-up are proved equivalent to an order condition on the ranges and to the first-match look-up that `Mem.v` uses; core's binary search loop is modelled and proved to keep its contract by induction on its fuel.
* **C124** `SpecTexts.v` holds tables written from the sources by a script that reads the Rust enums and `Display` implementations (not the model); each row is checked by evaluation, completeness by case analysis, the forms with arguments (keys, addresses, field values) for all values.
