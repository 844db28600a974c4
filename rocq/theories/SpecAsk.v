(** * SpecAsk: conversations with any image source and any guest memory.

    SpecTalk describes loads by what is asked of the source and answered.  Here guest memory is
    open as well: the conversation has both.  Nothing is assumed about either, except that a read
    gives no more bytes than asked for (and [read_exact] as many). *)
From Verif Require Import Base Io Mem SpecMem SpecFile Text Cmdline Loader SpecElf SpecBz Pe SpecPe Source SpecTalk BootParams Ask.

(** A question and its answer. *)
Inductive act :=
| Img (e : event)                            (* to the source; see SpecTalk *)
| Placed (a n : N) (ok : bool)               (* read_exact_volatile_from(a, image, n) on guest memory *)
| Fits (a n : N) (ok : bool)                 (* checked_offset(a, n) gives an address *)
| Wrote (bs : bytes) (a : N) (ok : bool)     (* write_slice(bs, a) *)
| Last (x : N).                              (* last_addr() *)

(** It happens in a world. *)
Definition happens {W} (wd : world W) (w : W) (x : act) (w' : W) : Prop :=
  match x with
  | Img (SoughtEnd g) => on_end wd w = (w', g)
  | Img (SoughtTo p g) => on_to wd w p = (w', g)
  | Img (SoughtBy d g) => on_by wd w d = (w', g)
  | Img (ReadAll n g) => on_all wd w n = (w', g)
  | Img (ReadSome n g) => on_some wd w n = (w', g)
  | Img (ReadGuest _ _) => False
  | Placed a n ok => on_place wd w a n = (w', ok)
  | Fits a n ok => on_fits wd w a n = (w', ok)
  | Wrote bs a ok => on_write wd w bs a = (w', ok)
  | Last x => on_last wd w = (w', x)
  end.
Inductive conversation {W} (wd : world W) : W -> list act -> W -> Prop :=
| cv_nil w : conversation wd w [] w
| cv_cons w x w1 l w' : happens wd w x w1 -> conversation wd w1 l w' -> conversation wd w (x :: l) w'.

(** What is assumed of answers. *)
Definition fair (x : act) : Prop :=
  match x with
  | Img (ReadAll n (Some bs)) => lenN bs = n
  | Img (ReadSome n (Some bs)) => lenN bs <= n
  | _ => True
  end.
Definition fair_world {W} (wd : world W) : Prop := forall w x w', happens wd w x w' -> fair x.

(** ** Device tree blobs *)
Inductive dtb_acts (addr : N) : list act -> outcome lerror unit -> Prop :=
| da_no_end : dtb_acts addr [Img (SoughtEnd None)] (Err (LPe SeekDtbEnd))
| da_big n : 2 * 1024 * 1024 < n -> dtb_acts addr [Img (SoughtEnd (Some n))] (Err (LPe DtbTooBig))
| da_no_start n : n <= 2 * 1024 * 1024 ->
    dtb_acts addr [Img (SoughtEnd (Some n)); Img (SoughtTo 0 None)] (Err (LPe SeekDtbStart))
| da_refused n q : n <= 2 * 1024 * 1024 ->
    dtb_acts addr [Img (SoughtEnd (Some n)); Img (SoughtTo 0 (Some q)); Placed addr n false] (Err (LPe ReadDtbImage))
| da_placed n q : n <= 2 * 1024 * 1024 ->
    dtb_acts addr [Img (SoughtEnd (Some n)); Img (SoughtTo 0 (Some q)); Placed addr n true] (Ok tt).

(** ** PE images *)
Inductive pe_acts (a : arch) (off : option N) : list act -> outcome lerror load_result -> Prop :=
| pa_no_end : pe_acts a off [Img (SoughtEnd None)] (Err (LPe SeekImageEnd))
| pa_no_start n : pe_acts a off [Img (SoughtEnd (Some n)); Img (SoughtTo 0 None)] (Err (LPe SeekImageHeader))
| pa_no_header n q :
    pe_acts a off [Img (SoughtEnd (Some n)); Img (SoughtTo 0 (Some q)); Img (ReadAll 64 None)] (Err (LPe ReadImageHeader))
| pa_bad n q h e : lenN h = 64 -> pe_problem a h off e ->
    pe_acts a off [Img (SoughtEnd (Some n)); Img (SoughtTo 0 (Some q)); Img (ReadAll 64 (Some h))] (Err (LPe e))
| pa_no_rewind n q h : lenN h = 64 -> pe_good a h off ->
    pe_acts a off [Img (SoughtEnd (Some n)); Img (SoughtTo 0 (Some q)); Img (ReadAll 64 (Some h)); Img (SoughtTo 0 None)]
      (Err (LPe SeekImageHeader))
| pa_refused n q h q2 : lenN h = 64 -> pe_good a h off ->
    pe_acts a off
      [Img (SoughtEnd (Some n)); Img (SoughtTo 0 (Some q)); Img (ReadAll 64 (Some h)); Img (SoughtTo 0 (Some q2));
       Placed (pe_load_addr a h off) n false] (Err (LPe PeReadKernelImage))
| pa_over n q h q2 : lenN h = 64 -> pe_good a h off -> 2 ^ 64 <= pe_load_addr a h off + n ->
    pe_acts a off
      [Img (SoughtEnd (Some n)); Img (SoughtTo 0 (Some q)); Img (ReadAll 64 (Some h)); Img (SoughtTo 0 (Some q2));
       Placed (pe_load_addr a h off) n true] (Err MemoryOverflow)
| pa_placed n q h q2 : lenN h = 64 -> pe_good a h off -> pe_load_addr a h off + n < 2 ^ 64 ->
    pe_acts a off
      [Img (SoughtEnd (Some n)); Img (SoughtTo 0 (Some q)); Img (ReadAll 64 (Some h)); Img (SoughtTo 0 (Some q2));
       Placed (pe_load_addr a h off) n true]
      (Ok (mkResult (pe_load_addr a h off) (pe_load_addr a h off + n) None PvhEntryIgnored)).

(** ** bzImages *)
Inductive bz_acts (off highmem : option N) : list act -> outcome lerror load_result -> Prop :=
| ba_no_end : bz_acts off highmem [Img (SoughtEnd None)] (Err (LBz SeekBzImageEnd))
| ba_no_start n : bz_acts off highmem [Img (SoughtEnd (Some n)); Img (SoughtTo 0x1f1 None)] (Err (LBz SeekBzImageHeader))
| ba_no_header n q :
    bz_acts off highmem [Img (SoughtEnd (Some n)); Img (SoughtTo 0x1f1 (Some q)); Img (ReadSome 123 None)]
      (Err (LBz ReadBzImageHeader))
| ba_bad n q bs e : lenN bs <= 123 -> bz_problem n bs highmem e ->
    bz_acts off highmem [Img (SoughtEnd (Some n)); Img (SoughtTo 0x1f1 (Some q)); Img (ReadSome 123 (Some bs))] (Err e)
| ba_no_kernel n q bs : lenN bs <= 123 -> bz_good n bs highmem ->
    bz_acts off highmem
      [Img (SoughtEnd (Some n)); Img (SoughtTo 0x1f1 (Some q)); Img (ReadSome 123 (Some bs));
       Img (SoughtTo (bz_setup_size (as_file bs)) None)]
      (Err (LBz SeekBzImageCompressedKernel))
| ba_refused n q bs q2 : lenN bs <= 123 -> bz_good n bs highmem ->
    bz_acts off highmem
      [Img (SoughtEnd (Some n)); Img (SoughtTo 0x1f1 (Some q)); Img (ReadSome 123 (Some bs));
       Img (SoughtTo (bz_setup_size (as_file bs)) (Some q2));
       Placed (bz_load_addr (as_file bs) off) (n - bz_setup_size (as_file bs)) false]
      (Err (LBz ReadBzImageCompressedKernel))
| ba_over n q bs q2 : lenN bs <= 123 -> bz_good n bs highmem ->
    2 ^ 64 <= bz_load_addr (as_file bs) off + (n - bz_setup_size (as_file bs)) ->
    bz_acts off highmem
      [Img (SoughtEnd (Some n)); Img (SoughtTo 0x1f1 (Some q)); Img (ReadSome 123 (Some bs));
       Img (SoughtTo (bz_setup_size (as_file bs)) (Some q2));
       Placed (bz_load_addr (as_file bs) off) (n - bz_setup_size (as_file bs)) true] (Err MemoryOverflow)
| ba_placed n q bs q2 : lenN bs <= 123 -> bz_good n bs highmem ->
    bz_load_addr (as_file bs) off + (n - bz_setup_size (as_file bs)) < 2 ^ 64 ->
    bz_acts off highmem
      [Img (SoughtEnd (Some n)); Img (SoughtTo 0x1f1 (Some q)); Img (ReadSome 123 (Some bs));
       Img (SoughtTo (bz_setup_size (as_file bs)) (Some q2));
       Placed (bz_load_addr (as_file bs) off) (n - bz_setup_size (as_file bs)) true]
      (Ok (mkResult (bz_load_addr (as_file bs) off)
             (bz_load_addr (as_file bs) off + (n - bz_setup_size (as_file bs)))
             (Some (with_code32 (filled bs) (bz_load_addr (as_file bs) off))) PvhEntryIgnored)).

(** ** ELF images *)
(** One program header: the PVH capability it brings, if any.  The rules for notes are SpecTalk's. *)
Inductive ph_acts (bld : build) (off : option N) (p : ph) : list act -> outcome lerror (option pvh_cap) -> Prop :=
| ha_other : is_load p = false -> is_note p = false -> ph_acts bld off p [] (Ok None)
| ha_ignored k : is_load p = false -> is_note p = true -> off = Some k -> ph_acts bld off p [] (Ok (Some PvhEntryIgnored))
| ha_no_notes : is_load p = false -> is_note p = true -> off = None ->
    ph_acts bld off p [Img (SoughtTo (ph_offset p) None)] (Err (LElf SeekNoteHeader))
| ha_notes q evs o : is_load p = false -> is_note p = true -> off = None ->
    notes_talk bld (ph_offset p) (ph_filesz p) 0 evs o ->
    ph_acts bld off p (map Img (SoughtTo (ph_offset p) (Some q) :: evs))
      (match o with Ok c => Ok (Some c) | Err e => Err e | Panic w => Panic w end)
| ha_no_start : is_load p = true ->
    ph_acts bld off p [Img (SoughtTo (ph_offset p) None)] (Err (LElf SeekKernelStart))
| ha_addr q : is_load p = true -> 2 ^ 64 <= base_of off + ph_paddr p ->
    ph_acts bld off p [Img (SoughtTo (ph_offset p) (Some q))] (Err (LElf InvalidProgramHeaderAddress))
| ha_refused q : is_load p = true -> base_of off + ph_paddr p < 2 ^ 64 ->
    ph_acts bld off p [Img (SoughtTo (ph_offset p) (Some q)); Placed (base_of off + ph_paddr p) (ph_filesz p) false]
      (Err (LElf ReadKernelImage))
| ha_end q : is_load p = true -> base_of off + ph_paddr p < 2 ^ 64 -> 2 ^ 64 <= base_of off + ph_paddr p + ph_memsz p ->
    ph_acts bld off p [Img (SoughtTo (ph_offset p) (Some q)); Placed (base_of off + ph_paddr p) (ph_filesz p) true]
      (Err MemoryOverflow)
| ha_placed q : is_load p = true -> base_of off + ph_paddr p + ph_memsz p < 2 ^ 64 ->
    ph_acts bld off p [Img (SoughtTo (ph_offset p) (Some q)); Placed (base_of off + ph_paddr p) (ph_filesz p) true]
      (Ok None).
(** The table, up to the first entry that fails. *)
Inductive table_acts (bld : build) (off : option N) : list ph -> pvh_cap -> list act -> outcome lerror pvh_cap -> Prop :=
| ta_nil c : table_acts bld off [] c [] (Ok c)
| ta_err p ps c l e : ph_acts bld off p l (Err e) -> table_acts bld off (p :: ps) c l (Err e)
| ta_panic p ps c l w : ph_acts bld off p l (Panic w) -> table_acts bld off (p :: ps) c l (Panic w)
| ta_cons p ps c l c1 l2 o : ph_acts bld off p l (Ok c1) ->
    table_acts bld off ps (match c1 with Some x => x | None => c end) l2 o ->
    table_acts bld off (p :: ps) c (l ++ l2) o.
Inductive elf_acts (bld : build) (off highmem : option N) : list act -> outcome lerror load_result -> Prop :=
| ea_no_start : elf_acts bld off highmem [Img (SoughtTo 0 None)] (Err (LElf SeekElfStart))
| ea_no_header q :
    elf_acts bld off highmem [Img (SoughtTo 0 (Some q)); Img (ReadAll 64 None)] (Err (LElf ReadElfHeader))
| ea_bad q h e : lenN h = 64 -> elf_problem h off highmem e ->
    elf_acts bld off highmem [Img (SoughtTo 0 (Some q)); Img (ReadAll 64 (Some h))] (Err (LElf e))
| ea_no_table q h : elf_good h off highmem ->
    elf_acts bld off highmem [Img (SoughtTo 0 (Some q)); Img (ReadAll 64 (Some h)); Img (SoughtTo (phoff_of h) None)]
      (Err (LElf SeekProgramHeader))
| ea_short_table q h q2 bs : elf_good h off highmem -> lenN bs < phnum_of h -> Forall (fun b => lenN b = 56) bs ->
    elf_acts bld off highmem
      (map Img (SoughtTo 0 (Some q) :: ReadAll 64 (Some h) :: SoughtTo (phoff_of h) (Some q2) ::
                map got_entry bs ++ [ReadAll 56 None]))
      (Err (LElf ReadProgramHeader))
| ea_table q h q2 bs l o : elf_good h off highmem -> lenN bs = phnum_of h -> Forall (fun b => lenN b = 56) bs ->
    table_acts bld off (map ph_read bs) PvhEntryIgnored l o ->
    elf_acts bld off highmem
      (map Img (SoughtTo 0 (Some q) :: ReadAll 64 (Some h) :: SoughtTo (phoff_of h) (Some q2) :: map got_entry bs) ++ l)
      (match o with
       | Ok c => Ok (mkResult (base_of off + entry_of h) (max_end off (map ph_read bs)) None c)
       | Err e => Err e
       | Panic w => Panic w
       end).

(** ** The command line: [s], the text without the NUL at its end *)
Inductive cmdline_acts (addr : N) (c : cmdline) : list act -> outcome lerror unit -> Prop :=
| ca_invalid e : as_cstring c = Err e -> cmdline_acts addr c [] (Err InvalidCommandLine)
| ca_wraps s : as_cstring c = Ok s -> 2 ^ 64 <= addr + lenN s -> cmdline_acts addr c [] (Err CommandLineOverflow)
| ca_past s x : as_cstring c = Ok s -> addr + lenN s < 2 ^ 64 -> x < addr + lenN s ->
    cmdline_acts addr c [Last x] (Err CommandLineOverflow)
| ca_refused s x : as_cstring c = Ok s -> addr + lenN s < 2 ^ 64 -> addr + lenN s <= x ->
    cmdline_acts addr c [Last x; Wrote (s ++ [x00]) addr false] (Err CommandLineCopy)
| ca_written s x : as_cstring c = Ok s -> addr + lenN s < 2 ^ 64 -> addr + lenN s <= x ->
    cmdline_acts addr c [Last x; Wrote (s ++ [x00]) addr true] (Ok tt).

(** ** Boot parameters *)
(** A block of bytes is offered to guest memory and written. *)
Inductive block_acts (bs : bytes) (a : N) (past setup : berror) : list act -> outcome berror unit -> Prop :=
| bl_past : block_acts bs a past setup [Fits a (lenN bs) false] (Err past)
| bl_refused : block_acts bs a past setup [Fits a (lenN bs) true; Wrote bs a false] (Err setup)
| bl_written : block_acts bs a past setup [Fits a (lenN bs) true; Wrote bs a true] (Ok tt).
Inductive modules_acts (p : boot_info) : list act -> outcome berror unit -> Prop :=
| ma_none : modules p = None -> modules_acts p [] (Ok tt)
| ma_no_addr t : modules p = Some t -> modules_start p = None -> modules_acts p [] (Err (BPvh ModulesAddressMissing))
| ma_refused t a : modules p = Some t -> modules_start p = Some a ->
    modules_acts p [Wrote t a false] (Err (BPvh ModulesSetup))
| ma_written t a : modules p = Some t -> modules_start p = Some a -> modules_acts p [Wrote t a true] (Ok tt).
Inductive pvh_acts (p : boot_info) : list act -> outcome berror unit -> Prop :=
| va_none : sections p = None -> pvh_acts p [] (Err (BPvh MemmapTableMissing))
| va_no_addr t : sections p = Some t -> sections_start p = None -> pvh_acts p [] (Err (BPvh MemmapTableAddressMissing))
| va_table t a l e : sections p = Some t -> sections_start p = Some a ->
    block_acts t a (BPvh MemmapTablePastRamEnd) (BPvh MemmapTableSetup) l (Err e) -> pvh_acts p l (Err e)
| va_start t a l l2 e : sections p = Some t -> sections_start p = Some a ->
    block_acts t a (BPvh MemmapTablePastRamEnd) (BPvh MemmapTableSetup) l (Ok tt) ->
    block_acts (header p) (header_start p) (BPvh StartInfoPastRamEnd) (BPvh StartInfoSetup) l2 (Err e) ->
    pvh_acts p (l ++ l2) (Err e)
| va_rest t a l l2 l3 o : sections p = Some t -> sections_start p = Some a ->
    block_acts t a (BPvh MemmapTablePastRamEnd) (BPvh MemmapTableSetup) l (Ok tt) ->
    block_acts (header p) (header_start p) (BPvh StartInfoPastRamEnd) (BPvh StartInfoSetup) l2 (Ok tt) ->
    modules_acts p l3 o -> pvh_acts p (l ++ l2 ++ l3) o.

(** ** Any call at all *)
Inductive call :=
| LoadElf (bld : build) (off highmem : option N)
| LoadBz (off highmem : option N)
| LoadPe (a : arch) (off : option N)
| LoadDtb (addr : N)
| LoadCmdline (bld : build) (addr : N) (c : cmdline)
| WriteLinux (p : boot_info)
| WriteFdt (p : boot_info)
| WritePvh (p : boot_info).
Inductive result :=
| Image (o : outcome lerror load_result)
| Blob (o : outcome lerror unit)
| Boot (o : outcome berror unit).
Definition failed (r : result) : Prop :=
  (exists e, r = Image (Err e)) \/ (exists e, r = Blob (Err e)) \/ (exists e, r = Boot (Err e)).
(** The rules of the call. *)
Definition call_acts (c : call) (l : list act) (r : result) : Prop :=
  match c with
  | LoadElf bld off highmem => exists o, r = Image o /\ elf_acts bld off highmem l o
  | LoadBz off highmem => exists o, r = Image o /\ bz_acts off highmem l o
  | LoadPe a off => exists o, r = Image o /\ pe_acts a off l o
  | LoadDtb addr => exists o, r = Blob o /\ dtb_acts addr l o
  | LoadCmdline bld addr c => exists o, r = Blob o /\ cmdline_acts addr c l o
  | WriteLinux p => exists o, r = Boot o /\
      block_acts (header p) (header_start p) (BLinux ZeroPagePastRamEnd) (BLinux ZeroPageSetup) l o
  | WriteFdt p => exists o, r = Boot o /\
      block_acts (header p) (header_start p) (BFdt FDTPastRamEnd) (BFdt WriteFDTToMemory) l o
  | WritePvh p => exists o, r = Boot o /\ pvh_acts p l o
  end.
(** The call, in a world. *)
Definition call_runs {W} (wd : world W) (c : call) (w w' : W) (r : result) : Prop :=
  match c with
  | LoadElf bld off highmem => exists o, r = Image o /\ exec wd (elf_prog bld off highmem) w = (w', o)
  | LoadBz off highmem => exists o, r = Image o /\ exec wd (bz_prog off highmem) w = (w', o)
  | LoadPe a off => exists o, r = Image o /\ exec wd (pe_prog a off) w = (w', o)
  | LoadDtb addr => exists o, r = Blob o /\ exec wd (dtb_prog addr) w = (w', o)
  | LoadCmdline bld addr c => exists o, r = Blob o /\ exec wd (cmdline_prog bld addr c) w = (w', o)
  | WriteLinux p => exists o, r = Boot o /\ exec wd (linux_prog p) w = (w', o)
  | WriteFdt p => exists o, r = Boot o /\ exec wd (fdt_prog p) w = (w', o)
  | WritePvh p => exists o, r = Boot o /\ exec wd (pvh_prog p) w = (w', o)
  end.

(** An answer that is an error, or no. *)
Definition refusal (x : act) : Prop :=
  match x with
  | Img (SoughtEnd None) | Img (SoughtTo _ None) | Img (SoughtBy _ None) | Img (ReadAll _ None) | Img (ReadSome _ None) => True
  | Placed _ _ false | Fits _ _ false | Wrote _ _ false => True
  | _ => False
  end.
(** The same question, whatever the answers. *)
Definition same_question (x y : act) : Prop :=
  match x, y with
  | Img (SoughtEnd _), Img (SoughtEnd _) => True
  | Img (SoughtTo p _), Img (SoughtTo q _) => p = q
  | Img (SoughtBy p _), Img (SoughtBy q _) => p = q
  | Img (ReadAll p _), Img (ReadAll q _) => p = q
  | Img (ReadSome p _), Img (ReadSome q _) => p = q
  | Placed a n _, Placed b k _ => a = b /\ n = k
  | Fits a n _, Fits b k _ => a = b /\ n = k
  | Wrote s a _, Wrote t b _ => s = t /\ a = b
  | Last _, Last _ => True
  | _, _ => False
  end.
(** Copies into guest memory, and blocks written to it, in order. *)
Definition copies (l : list act) : list (N * N) :=
  flat_map (fun x => match x with Placed a n _ => [(a, n)] | _ => [] end) l.
Definition blocks (l : list act) : list (N * bytes) :=
  flat_map (fun x => match x with Wrote bs a _ => [(a, bs)] | _ => [] end) l.
