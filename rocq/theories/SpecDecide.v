(** * SpecDecide: the rules, and nothing but the rules.

    For every call of SpecVmm, the report the documentation promises, given the bytes of the
    image, the arguments and which guest addresses exist.  Nothing here mentions how the crate
    goes about its work; Props_Decide shows that the rules leave exactly one report. *)
From Verif Require Import Base Io Mem SpecMem SpecFile Text Cmdline Loader SpecElf SpecBz Pe SpecPe
  BootParams Configurators SpecVmm.

(** ELF: the header checks in order, then the program headers in order, then the result. *)
Inductive elf_says (f : bytes) (maxpos : N) (off highmem : option N) (m : gmem) : outcome lerror load_result -> Prop :=
| es_start e : start_problem f maxpos off highmem e -> elf_says f maxpos off highmem m (Err (LElf e))
| es_segment pre p post e :
    start_good f maxpos off highmem -> phdrs_of f = pre ++ p :: post ->
    Forall (ph_fine f maxpos m off) pre -> ph_error f maxpos m off p e ->
    elf_says f maxpos off highmem m (Err e)
| es_loaded c :
    start_good f maxpos off highmem -> Forall (ph_fine f maxpos m off) (phdrs_of f) ->
    caps f maxpos off (phdrs_of f) c ->
    elf_says f maxpos off highmem m
      (Ok (mkResult (base_of off + entry_of f) (max_end off (phdrs_of f)) None c)).

(** bzImage. *)
Inductive bz_says (be : backend) (f : bytes) (off highmem : option N) (m : gmem) : outcome lerror load_result -> Prop :=
| bs_header : ~ bz_header_good f -> bz_says be f off highmem m (Err (LBz InvalidBzImage))
| bs_short : bz_header_good f -> lenN f < bz_setup_size f -> bz_says be f off highmem m (Err (LBz BzUnderflow))
| bs_low : bz_header_good f -> bz_setup_size f <= lenN f -> ~ bz_highmem_ok f highmem ->
    bz_says be f off highmem m (Err InvalidKernelStartAddress)
| bs_place : bz_header_good f -> bz_setup_size f <= lenN f -> bz_highmem_ok f highmem ->
    ~ dest_ok be m (bz_load_addr f off) (lenN (payload f)) ->
    bz_says be f off highmem m (Err (LBz ReadBzImageCompressedKernel))
| bs_loaded : bz_header_good f -> bz_setup_size f <= lenN f -> bz_highmem_ok f highmem ->
    dest_ok be m (bz_load_addr f off) (lenN (payload f)) ->
    bz_says be f off highmem m
      (Ok (mkResult (bz_load_addr f off) (bz_load_addr f off + lenN (payload f))
             (Some (with_code32 (part f 0x1f1 123) (bz_load_addr f off))) PvhEntryIgnored)).

(** arm64 and riscv64 Image. *)
Inductive pe_says (a : arch) (f : bytes) (off : option N) (m : gmem) : outcome lerror load_result -> Prop :=
| ps_problem e : pe_problem a f off e -> pe_says a f off m (Err (LPe e))
| ps_place : pe_good a f off -> ~ range_backed m (pe_load_addr a f off) (lenN f) ->
    pe_says a f off m (Err (LPe PeReadKernelImage))
| ps_loaded : pe_good a f off -> range_backed m (pe_load_addr a f off) (lenN f) ->
    pe_says a f off m
      (Ok (mkResult (pe_load_addr a f off) (pe_load_addr a f off + lenN f) None PvhEntryIgnored)).

(** Device tree. *)
Inductive dtb_says (be : backend) (f : bytes) (addr : N) (m : gmem) : outcome lerror unit -> Prop :=
| ds_big : 2 * 1024 * 1024 < lenN f -> dtb_says be f addr m (Err (LPe DtbTooBig))
| ds_place : lenN f <= 2 * 1024 * 1024 -> ~ dest_ok be m addr (lenN f) -> dtb_says be f addr m (Err (LPe ReadDtbImage))
| ds_loaded : lenN f <= 2 * 1024 * 1024 -> dest_ok be m addr (lenN f) -> dtb_says be f addr m (Ok tt).

(** Guest memory reaches as far as address [x] (an empty memory reaches 0). *)
Definition reaches (m : gmem) (x : N) : Prop := x = 0 \/ exists y, backed m y /\ x <= y.
(** Command line: [s] is its text without the terminating NUL. *)
Inductive cmdline_says (c : cmdline) (addr : N) (m : gmem) : outcome lerror unit -> Prop :=
| cs_text e : as_cstring c = Err e -> cmdline_says c addr m (Err InvalidCommandLine)
| cs_past s : as_cstring c = Ok s -> ~ reaches m (addr + lenN s) -> cmdline_says c addr m (Err CommandLineOverflow)
| cs_hole s : as_cstring c = Ok s -> reaches m (addr + lenN s) -> ~ range_backed m addr (lenN s + 1) ->
    cmdline_says c addr m (Err CommandLineCopy)
| cs_loaded s : as_cstring c = Ok s -> range_backed m addr (lenN s + 1) -> cmdline_says c addr m (Ok tt).

(** Zero page, device tree blob: one byte past the end must exist, then all of it must. *)
Inductive header_says (past fail : berror) (p : boot_info) (m : gmem) : outcome berror unit -> Prop :=
| hs_past : ~ backed m (header_start p + lenN (header p)) -> header_says past fail p m (Err past)
| hs_hole : backed m (header_start p + lenN (header p)) -> ~ range_backed m (header_start p) (lenN (header p)) ->
    header_says past fail p m (Err fail)
| hs_written : range_backed m (header_start p) (lenN (header p) + 1) -> header_says past fail p m (Ok tt).

(** PVH: the memory map, then the start info, then the modules. *)
Definition map_fits (p : boot_info) (m : gmem) : Prop :=
  exists s v, sections_start p = Some s /\ sections p = Some v /\ range_backed m s (lenN v + 1).
Definition info_fits (p : boot_info) (m : gmem) : Prop :=
  range_backed m (header_start p) (lenN (header p) + 1).
Inductive pvh_says (be : backend) (p : boot_info) (m : gmem) : outcome berror unit -> Prop :=
| vs_no_map : sections p = None -> pvh_says be p m (Err (BPvh MemmapTableMissing))
| vs_no_map_addr v : sections p = Some v -> sections_start p = None ->
    pvh_says be p m (Err (BPvh MemmapTableAddressMissing))
| vs_map_past s v : sections_start p = Some s -> sections p = Some v -> ~ backed m (s + lenN v) ->
    pvh_says be p m (Err (BPvh MemmapTablePastRamEnd))
| vs_map_hole s v : sections_start p = Some s -> sections p = Some v ->
    backed m (s + lenN v) -> ~ range_backed m s (lenN v) -> pvh_says be p m (Err (BPvh MemmapTableSetup))
| vs_info_past : map_fits p m -> ~ backed m (header_start p + lenN (header p)) ->
    pvh_says be p m (Err (BPvh StartInfoPastRamEnd))
| vs_info_hole : map_fits p m -> backed m (header_start p + lenN (header p)) ->
    ~ range_backed m (header_start p) (lenN (header p)) -> pvh_says be p m (Err (BPvh StartInfoSetup))
| vs_no_modules_addr w : map_fits p m -> info_fits p m -> modules p = Some w -> modules_start p = None ->
    pvh_says be p m (Err (BPvh ModulesAddressMissing))
| vs_modules_hole a w : map_fits p m -> info_fits p m -> modules_start p = Some a -> modules p = Some w ->
    ~ dest_ok be m a (lenN w) -> pvh_says be p m (Err (BPvh ModulesSetup))
| vs_written : map_fits p m -> info_fits p m ->
    (forall w, modules p = Some w -> exists a, modules_start p = Some a /\ dest_ok be m a (lenN w)) ->
    pvh_says be p m (Ok tt).

(** The report of any call. *)
Inductive says (be : backend) (m : gmem) : task -> report -> Prop :=
| say_elf off h im o : elf_says (rd_data im) (rd_maxpos im) off h m o -> says be m (LoadElf off h im) (Loaded o)
| say_bz off h im o : bz_says be (rd_data im) off h m o -> says be m (LoadBz off h im) (Loaded o)
| say_pe a off h im o : pe_says a (rd_data im) off m o -> says be m (LoadPe a off h im) (Loaded o)
| say_dtb addr im o : dtb_says be (rd_data im) addr m o -> says be m (LoadDtb addr im) (Done o)
| say_cmdline addr c o : cmdline_says c addr m o -> says be m (LoadCmdline addr c) (Done o)
| say_linux p o : header_says (BLinux ZeroPagePastRamEnd) (BLinux ZeroPageSetup) p m o ->
    says be m (WriteLinux p) (Written o)
| say_fdt p o : header_says (BFdt FDTPastRamEnd) (BFdt WriteFDTToMemory) p m o ->
    says be m (WriteFdt p) (Written o)
| say_pvh p o : pvh_says be p m o -> says be m (WritePvh p) (Written o).
