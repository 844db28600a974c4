(** * Ask: the loaders and configurators over any image source and any guest memory.

    The Rust functions are generic in the source ([F: Read + ReadVolatile + Seek]) and in guest
    memory ([M: GuestMemory]).  Here both are left open: a function of the crate is a program that
    asks questions - of the source, or of guest memory - and goes on according to the answers.
    [exec] runs it in a given world.  (Source.v: any source, but vm-memory's guest memory.) *)
From Verif Require Import Base Io Mem Layout Text Cmdline Loader Elf BzImage Pe Source BootParams.

(** The generic functions of src/loader/mod.rs:176-184, 222-250, src/loader/pe/mod.rs:218-236, src/configurator/mod.rs:124-126. *)
Inductive prog (E A : Type) : Type :=
| Done (o : outcome E A)
| AskEnd (k : option N -> prog E A)                       (* image.seek(SeekFrom::End(0)) *)
| AskTo (p : N) (k : option N -> prog E A)                (* image.seek(SeekFrom::Start(p)) *)
| AskBy (d : Z) (k : option N -> prog E A)                (* image.seek(SeekFrom::Current(d)) *)
| AskAll (n : N) (k : option bytes -> prog E A)           (* image.read_exact of n bytes *)
| AskSome (n : N) (k : option bytes -> prog E A)          (* image.read_volatile of up to n bytes *)
| AskPlace (a n : N) (k : bool -> prog E A)               (* memory.read_exact_volatile_from(a, image, n) *)
| AskFits (a n : N) (k : bool -> prog E A)                (* memory.checked_offset(a, n).is_some() *)
| AskWrite (bs : bytes) (a : N) (k : bool -> prog E A)    (* memory.write_slice(bs, a) *)
| AskLast (k : N -> prog E A).                            (* memory.last_addr() *)
Arguments Done {E A}. Arguments AskEnd {E A}. Arguments AskTo {E A}. Arguments AskBy {E A}. Arguments AskAll {E A}.
Arguments AskSome {E A}. Arguments AskPlace {E A}. Arguments AskFits {E A}. Arguments AskWrite {E A}. Arguments AskLast {E A}.

(** Sequencing with [?]. *)
(** The generic functions of src/loader/mod.rs:176-184, 222-250, src/loader/pe/mod.rs:218-236, src/configurator/mod.rs:124-126. *)
Fixpoint pbind {E A B} (x : prog E A) (f : A -> prog E B) : prog E B :=
  match x with
  | Done (Ok a) => f a
  | Done (Err e) => Done (Err e)
  | Done (Panic w) => Done (Panic w)
  | AskEnd k => AskEnd (fun g => pbind (k g) f)
  | AskTo p k => AskTo p (fun g => pbind (k g) f)
  | AskBy d k => AskBy d (fun g => pbind (k g) f)
  | AskAll n k => AskAll n (fun g => pbind (k g) f)
  | AskSome n k => AskSome n (fun g => pbind (k g) f)
  | AskPlace a n k => AskPlace a n (fun g => pbind (k g) f)
  | AskFits a n k => AskFits a n (fun g => pbind (k g) f)
  | AskWrite bs a k => AskWrite bs a (fun g => pbind (k g) f)
  | AskLast k => AskLast (fun g => pbind (k g) f)
  end.
Declare Scope ask_scope.
Delimit Scope ask_scope with ask.
Notation "x <~ a ;; b" := (pbind a (fun x => b)) (at level 100, a at next level, right associativity) : ask_scope.
Notation "a ;;~ b" := (pbind a (fun _ => b)) (at level 100, right associativity) : ask_scope.
Local Open Scope ask_scope.

(** One question, with [.map_err(|_| e)]. *)
(** src/loader/bzimage/mod.rs:115, src/loader/pe/mod.rs:146, 227. *)
Definition seek_end {E} (e : E) : prog E N := AskEnd (fun g => Done (ok_or g e)).
(** src/loader/elf/mod.rs:212, 241, 273, 330, 376, src/loader/bzimage/mod.rs:118, 172, src/loader/pe/mod.rs:154, 196, 232. *)
Definition seek_to {E} (p : N) (e : E) : prog E N := AskTo p (fun g => Done (ok_or g e)).
(** src/loader/elf/mod.rs:389. *)
Definition seek_by {E} (d : Z) (e : E) : prog E N := AskBy d (fun g => Done (ok_or g e)).
(** src/loader/elf/mod.rs:216, 248, 341, 348, 405, src/loader/pe/mod.rs:157. *)
Definition read_all {E} (n : N) (e : E) : prog E bytes := AskAll n (fun g => Done (ok_or g e)).
(** src/loader/bzimage/mod.rs:123. *)
Definition read_some {E} (n : N) (e : E) : prog E bytes := AskSome n (fun g => Done (ok_or g e)).
(** src/loader/elf/mod.rs:286, src/loader/bzimage/mod.rs:175, src/loader/pe/mod.rs:198, 234. *)
Definition place {E} (a n : N) (e : E) : prog E unit := AskPlace a n (fun ok => Done (if ok : bool then Ok tt else Err e)).
(** src/configurator/x86_64/linux.rs:105, pvh.rs:160, 167, src/configurator/fdt.rs:85. *)
Definition fits {E} (a n : N) (e : E) : prog E unit := AskFits a n (fun ok => Done (if ok : bool then Ok tt else Err e)).
(** src/loader/mod.rs:246, src/configurator/x86_64/linux.rs:108, pvh.rs:163, 170, 176, src/configurator/fdt.rs:90. *)
Definition write {E} (bs : bytes) (a : N) (e : E) : prog E unit :=
  AskWrite bs a (fun ok => Done (if ok : bool then Ok tt else Err e)).
(** src/loader/mod.rs:241. *)
Definition last {E} : prog E N := AskLast (fun x => Done (Ok x)).

(** ** src/loader/elf/mod.rs *)
(** Lines 339-382.  Every round goes on by at least 12 of the segment's bytes, which bounds the number of rounds. *)
Fixpoint note_prog (bld : build) (fuel : nat) (phdr : bytes) (read_size : N) (nhdr : bytes) : prog lerror (N * bytes) :=
  match fuel with
  | O => Done (Panic OutOfFuel)
  | S fuel' =>
      if negb (read_size <? phdr_get "p_filesz" phdr) then Done (Ok (read_size, nhdr))
      else
        nhdr <~ read_all (size Elf64_Nhdr) (LElf ReadNoteHeader) ;;
        found <~ (if (nhdr_get "n_type" nhdr =? XEN_ELFNOTE_PHYS32_ENTRY)
                     && (nhdr_get "n_namesz" nhdr =? PVH_NOTE_STR_SZ)
                  then buf <~ read_all PVH_NOTE_STR_SZ (LElf ReadNoteHeader) ;; Done (Ok (is_xen buf))
                  else Done (Ok false)) ;;
        if found : bool then Done (Ok (read_size, nhdr))
        else
          namesz_aligned <~ Done (align_up bld (nhdr_get "n_namesz" nhdr) ELFNOTE_ALIGN) ;;
          descsz_aligned <~ Done (align_up bld (nhdr_get "n_descsz" nhdr) ELFNOTE_ALIGN) ;;
          if (u32_max <? namesz_aligned) || (u32_max <? descsz_aligned) then Done (Err (LElf ElfOverflow))
          else
            read_size <~ Done
              (ok_or (match checked_add read_size (size Elf64_Nhdr) with
                      | Some x => match checked_add x namesz_aligned with
                                  | Some y => checked_add y descsz_aligned
                                  | None => None
                                  end
                      | None => None
                      end) (LElf ElfOverflow)) ;;
            target <~ Done (uadd bld (phdr_get "p_offset" phdr) read_size) ;;
            seek_to target (LElf SeekNoteHeader) ;;~
            note_prog bld fuel' phdr read_size nhdr
  end.

(** Lines 312-411. *)
Definition parse_note_prog (bld : build) (phdr : bytes) : prog lerror pvh_cap :=
  seek_to (phdr_get "p_offset" phdr) (LElf SeekNoteHeader) ;;~
  res <~ note_prog bld (S (S (N.to_nat (phdr_get "p_filesz" phdr / 12)))) phdr 0 (default_of Elf64_Nhdr) ;;
  let read_size := fst res in
  let nhdr := snd res in
  if phdr_get "p_filesz" phdr <=? read_size then Done (Ok PvhEntryNotPresent)
  else
    namesz_aligned <~ Done (align_up bld (nhdr_get "n_namesz" nhdr) ELFNOTE_ALIGN) ;;
    seek_by (Z.of_N namesz_aligned - Z.of_N PVH_NOTE_STR_SZ)%Z (LElf SeekNoteHeader) ;;~
    if nhdr_get "n_descsz" nhdr <? 4 then Done (Err (LElf InvalidPvhNote))
    else
      pvh_addr_bytes <~ read_all 4 (LElf ReadNoteHeader) ;;
      Done (Ok (PvhEntryPresent (le_dec pvh_addr_bytes))).

(** Lines 244-251. *)
Fixpoint read_phdrs_prog (n : nat) : prog lerror (list bytes) :=
  match n with
  | O => Done (Ok [])
  | S k =>
      phdr <~ read_all (size Elf64_Phdr) (LElf ReadProgramHeader) ;;
      rest <~ read_phdrs_prog k ;;
      Done (Ok (phdr :: rest))
  end.

(** Lines 254-292. *)
Fixpoint load_phdrs_prog (bld : build) (off : option N) (phdrs : list bytes) (kend : N) (cap : pvh_cap)
  : prog lerror (N * pvh_cap) :=
  match phdrs with
  | [] => Done (Ok (kend, cap))
  | phdr :: rest =>
      if negb (phdr_get "p_type" phdr =? PT_LOAD) || (phdr_get "p_filesz" phdr =? 0) then
        cap' <~ (if phdr_get "p_type" phdr =? PT_NOTE then
                   match off with
                   | Some _ => Done (Ok PvhEntryIgnored)
                   | None => parse_note_prog bld phdr
                   end
                 else Done (Ok cap)) ;;
        load_phdrs_prog bld off rest kend cap'
      else
        seek_to (phdr_get "p_offset" phdr) (LElf SeekKernelStart) ;;~
        mem_offset <~ Done (match off with
                            | Some k => ok_or (checked_add k (phdr_get "p_paddr" phdr)) (LElf InvalidProgramHeaderAddress)
                            | None => Ok (phdr_get "p_paddr" phdr)
                            end) ;;
        place mem_offset (phdr_get "p_filesz" phdr) (LElf ReadKernelImage) ;;~
        kernel_end <~ Done (ok_or (checked_add mem_offset (phdr_get "p_memsz" phdr)) MemoryOverflow) ;;
        load_phdrs_prog bld off rest (N.max kend kernel_end) cap
  end.

(** Lines 203-300. *)
Definition elf_prog (bld : build) (off highmem : option N) : prog lerror load_result :=
  seek_to 0 (LElf SeekElfStart) ;;~
  ehdr <~ read_all (size Elf64_Ehdr) (LElf ReadElfHeader) ;;
  Done (validate_header ehdr) ;;~
  (match highmem with
   | Some addr => if ehdr_get "e_entry" ehdr <? addr then Done (Err (LElf InvalidEntryAddress)) else Done (Ok tt)
   | None => Done (Ok tt)
   end) ;;~
  load <~ Done (match off with
                | Some k => ok_or (checked_add k (ehdr_get "e_entry" ehdr)) (LElf ElfOverflow)
                | None => Ok (ehdr_get "e_entry" ehdr)
                end) ;;
  seek_to (ehdr_get "e_phoff" ehdr) (LElf SeekProgramHeader) ;;~
  phdrs <~ read_phdrs_prog (N.to_nat (ehdr_get "e_phnum" ehdr)) ;;
  res <~ load_phdrs_prog bld off phdrs 0 PvhEntryIgnored ;;
  Done (Ok (mkResult load (fst res) None (snd res))).

(** ** src/loader/bzimage/mod.rs:105-184 *)
Definition bz_prog (off highmem : option N) : prog lerror load_result :=
  kernel_size0 <~ seek_end (LBz SeekBzImageEnd) ;;
  seek_to 0x1F1 (LBz SeekBzImageHeader) ;;~
  got <~ read_some (size setup_header) (LBz ReadBzImageHeader) ;;
  let boot_header := patch (default_of setup_header) 0 got in
  if negb (hdr_get "header" boot_header =? 0x53726448) then Done (Err (LBz InvalidBzImage))
  else if (hdr_get "version" boot_header <? 0x0200)
          || (N.land (hdr_get "loadflags" boot_header) 1 =? 0) then Done (Err (LBz InvalidBzImage))
  else
    let setup_sects := hdr_get "setup_sects" boot_header in
    let setup_size0 := if setup_sects =? 0 then 4 else setup_sects in
    setup_size <~ Done (ok_or (match checked_add setup_size0 1 with
                               | Some x => checked_mul x 512
                               | None => None
                               end) (LBz BzOverflow)) ;;
    kernel_size <~ Done (ok_or (checked_sub kernel_size0 setup_size) (LBz BzUnderflow)) ;;
    if match highmem with
       | Some h => hdr_get "code32_start" boot_header <? h
       | None => false
       end then Done (Err InvalidKernelStartAddress)
    else
      let mem_offset := match off with
                        | Some start => start
                        | None => hdr_get "code32_start" boot_header
                        end in
      let boot_header' := set setup_header [Fld "code32_start"] mem_offset boot_header in
      seek_to setup_size (LBz SeekBzImageCompressedKernel) ;;~
      place mem_offset kernel_size (LBz ReadBzImageCompressedKernel) ;;~
      kernel_end <~ Done (ok_or (checked_add mem_offset kernel_size) MemoryOverflow) ;;
      Done (Ok (mkResult mem_offset kernel_end (Some boot_header') PvhEntryIgnored)).

(** ** src/loader/pe/mod.rs:136-207 and 218-236 *)
Definition pe_prog (a : arch) (off : option N) : prog lerror load_result :=
  kernel_size <~ seek_end (LPe SeekImageEnd) ;;
  seek_to 0 (LPe SeekImageHeader) ;;~
  hdr <~ read_all (size (image_header a)) (LPe ReadImageHeader) ;;
  if negb (magic_ok a hdr) then Done (Err (LPe InvalidImageMagicNumber))
  else if match off with
          | Some k => negb (k mod 0x200000 =? 0)
          | None => false
          end then Done (Err (LPe InvalidBaseAddrAlignment))
  else
    mem_offset <~ Done (ok_or (checked_add (match off with Some k => k | None => 0 end) (text_offset a hdr)) (LPe InvalidImage)) ;;
    seek_to 0 (LPe SeekImageHeader) ;;~
    place mem_offset kernel_size (LPe PeReadKernelImage) ;;~
    kernel_end <~ Done (ok_or (checked_add mem_offset kernel_size) MemoryOverflow) ;;
    Done (Ok (mkResult mem_offset kernel_end None PvhEntryIgnored)).
(** src/loader/pe/mod.rs:218-236. *)
Definition dtb_prog (addr : N) : prog lerror unit :=
  dtb_size <~ seek_end (LPe SeekDtbEnd) ;;
  if 0x200000 <? dtb_size then Done (Err (LPe DtbTooBig))
  else
    seek_to 0 (LPe SeekDtbStart) ;;~
    place addr dtb_size (LPe ReadDtbImage).

(** ** src/loader/mod.rs:222-250 *)
Definition cmdline_prog (bld : build) (addr : N) (c : cmdline) : prog lerror unit :=
  match as_cstring c with
  | Ok s =>
      let cmdline_bytes := bytes_with_nul s in
      d <~ Done (usub bld (lenN cmdline_bytes) 1) ;;
      e <~ Done (ok_or (checked_add addr d) CommandLineOverflow) ;;
      x <~ last ;;
      if x <? e then Done (Err CommandLineOverflow) else write cmdline_bytes addr CommandLineCopy
  | Err _ => Done (Err InvalidCommandLine)
  | Panic w => Done (Panic w)
  end.

(** ** Configurators *)
(** src/configurator/x86_64/linux.rs:98-112. *)
Definition linux_prog (p : boot_info) : prog berror unit :=
  fits (header_start p) (lenN (header p)) (BLinux ZeroPagePastRamEnd) ;;~
  write (header p) (header_start p) (BLinux ZeroPageSetup).
(** src/configurator/fdt.rs:80-92. *)
Definition fdt_prog (p : boot_info) : prog berror unit :=
  fits (header_start p) (lenN (header p)) (BFdt FDTPastRamEnd) ;;~
  write (header p) (header_start p) (BFdt WriteFDTToMemory).
(** src/configurator/x86_64/pvh.rs:146-181. *)
Definition pvh_prog (p : boot_info) : prog berror unit :=
  memmap <~ Done (ok_or (sections p) (BPvh MemmapTableMissing)) ;;
  memmap_addr <~ Done (ok_or (sections_start p) (BPvh MemmapTableAddressMissing)) ;;
  fits memmap_addr (lenN memmap) (BPvh MemmapTablePastRamEnd) ;;~
  write memmap memmap_addr (BPvh MemmapTableSetup) ;;~
  fits (header_start p) (lenN (header p)) (BPvh StartInfoPastRamEnd) ;;~
  write (header p) (header_start p) (BPvh StartInfoSetup) ;;~
  match modules p with
  | None => Done (Ok tt)
  | Some mods =>
      modules_addr <~ Done (ok_or (modules_start p) (BPvh ModulesAddressMissing)) ;;
      write mods modules_addr (BPvh ModulesSetup)
  end.

(** ** Running a program *)
(** A world: the source and guest memory together, in any state, answering as they like. *)
(** The type parameters [F] and [M] of src/loader/mod.rs:176-184 and src/configurator/mod.rs:124-126. *)
Record world (W : Type) := mkWorld {
  on_end : W -> W * option N;
  on_to : W -> N -> W * option N;
  on_by : W -> Z -> W * option N;
  on_all : W -> N -> W * option bytes;
  on_some : W -> N -> W * option bytes;
  on_place : W -> N -> N -> W * bool;
  on_fits : W -> N -> N -> W * bool;
  on_write : W -> bytes -> N -> W * bool;
  on_last : W -> W * N
}.
Arguments on_end {W}. Arguments on_to {W}. Arguments on_by {W}. Arguments on_all {W}. Arguments on_some {W}.
Arguments on_place {W}. Arguments on_fits {W}. Arguments on_write {W}. Arguments on_last {W}.

(** The type parameters [F] and [M] of src/loader/mod.rs:176-184 and src/configurator/mod.rs:124-126. *)
Fixpoint exec {W E A} (wd : world W) (p : prog E A) (w : W) : W * outcome E A :=
  match p with
  | Done o => (w, o)
  | AskEnd k => let (w', g) := on_end wd w in exec wd (k g) w'
  | AskTo x k => let (w', g) := on_to wd w x in exec wd (k g) w'
  | AskBy d k => let (w', g) := on_by wd w d in exec wd (k g) w'
  | AskAll n k => let (w', g) := on_all wd w n in exec wd (k g) w'
  | AskSome n k => let (w', g) := on_some wd w n in exec wd (k g) w'
  | AskPlace a n k => let (w', g) := on_place wd w a n in exec wd (k g) w'
  | AskFits a n k => let (w', g) := on_fits wd w a n in exec wd (k g) w'
  | AskWrite bs a k => let (w', g) := on_write wd w bs a in exec wd (k g) w'
  | AskLast k => let (w', g) := on_last wd w in exec wd (k g) w'
  end.

(** ** The world of the other files: a source and vm-memory's guest memory *)
(** vm-memory as [M] of src/loader/mod.rs:176-184 and src/configurator/mod.rs:124-126. *)
Definition vm_world {S} (src : source S) (be : backend) : world (S * gmem) := mkWorld (S * gmem)
  (fun w => let (s, g) := so_seek_end src (fst w) in ((s, snd w), g))
  (fun w p => let (s, g) := so_seek_start src (fst w) p in ((s, snd w), g))
  (fun w d => let (s, g) := so_seek_cur src (fst w) d in ((s, snd w), g))
  (fun w n => let (s, g) := so_read_exact src (fst w) n in ((s, snd w), g))
  (fun w n => let (s, g) := so_read_volatile src (fst w) n in ((s, snd w), g))
  (fun w a n => match gread_exact_volatile_from src be (fst w) (snd w) a n with
                | (s, m, Ok _) => ((s, m), true)
                | (s, m, _) => ((s, m), false)
                end)
  (fun w a n => (w, match checked_offset (snd w) a n with Some _ => true | None => false end))
  (fun w bs a => match write_slice be (snd w) bs a with
                 | (m, Ok _) => ((fst w, m), true)
                 | (m, _) => ((fst w, m), false)
                 end)
  (fun w => (w, last_addr (snd w))).
