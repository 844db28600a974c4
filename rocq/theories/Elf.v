(** * Elf: the ELF (vmlinux) loader, src/loader/elf/mod.rs. *)
From Verif Require Import Base Io Mem Layout Loader.
Open Scope loader_scope.

(** src/loader_gen/x86_64/elf.rs: EI_MAG0..3, EI_DATA, ELFMAG0..3, ELFDATA2LSB, PT_LOAD, PT_NOTE. *)
Definition EI_MAG0 : N := 0.
(** src/loader_gen/x86_64/elf.rs:311. *)
Definition EI_MAG1 : N := 1.
(** src/loader_gen/x86_64/elf.rs:312. *)
Definition EI_MAG2 : N := 2.
(** src/loader_gen/x86_64/elf.rs:313. *)
Definition EI_MAG3 : N := 3.
(** src/loader_gen/x86_64/elf.rs:315. *)
Definition EI_DATA : N := 5.
(** src/loader_gen/x86_64/elf.rs:321. *)
Definition ELFMAG0 : N := 127.
(** src/loader_gen/x86_64/elf.rs:322. *)
Definition ELFMAG1 : N := 69.
(** src/loader_gen/x86_64/elf.rs:323. *)
Definition ELFMAG2 : N := 76.
(** src/loader_gen/x86_64/elf.rs:324. *)
Definition ELFMAG3 : N := 70.
(** src/loader_gen/x86_64/elf.rs:334. *)
Definition ELFDATA2LSB : N := 1.
(** src/loader_gen/x86_64/elf.rs:86. *)
Definition PT_LOAD : N := 1.
(** src/loader_gen/x86_64/elf.rs:89. *)
Definition PT_NOTE : N := 4.

(** Field of a header read at src/loader/elf/mod.rs:216. *)
Definition ehdr_get (f : string) (ehdr : bytes) : N := get Elf64_Ehdr [Fld f] ehdr.
(** Field of a header read at src/loader/elf/mod.rs:248. *)
Definition phdr_get (f : string) (phdr : bytes) : N := get Elf64_Phdr [Fld f] phdr.
(** Field of a header read at src/loader/elf/mod.rs:340-342. *)
Definition nhdr_get (f : string) (nhdr : bytes) : N := get Elf64_Nhdr [Fld f] nhdr.
(** src/loader/elf/mod.rs:144-152. *)
Definition e_ident (ehdr : bytes) (i : N) : N := get Elf64_Ehdr [Fld "e_ident"; Idx i] ehdr.

(** src/loader/elf/mod.rs:142-161. *)
Definition validate_header (ehdr : bytes) : outcome lerror unit :=
  if negb (e_ident ehdr EI_MAG0 =? ELFMAG0) || negb (e_ident ehdr EI_MAG1 =? ELFMAG1)
     || negb (e_ident ehdr EI_MAG2 =? ELFMAG2) || negb (e_ident ehdr EI_MAG3 =? ELFMAG3)
  then Err (LElf InvalidElfMagicNumber)
  else if negb (e_ident ehdr EI_DATA =? ELFDATA2LSB) then Err (LElf BigEndianElfOnLittle)
  else if negb (ehdr_get "e_phentsize" ehdr =? size Elf64_Phdr) then Err (LElf InvalidProgramHeaderSize)
  else if ehdr_get "e_phoff" ehdr <? size Elf64_Ehdr then Err (LElf InvalidProgramHeaderOffset)
  else Ok tt.

(** src/loader/elf/mod.rs:418-430. [is_power_of_two]: non-zero with a single bit. *)
Definition is_power_of_two (n : N) : bool := negb (n =? 0) && (N.land n (n - 1) =? 0).
(** src/loader/elf/mod.rs:418-430. *)
Definition align_up (bld : build) (addr align : N) : outcome lerror N :=
  if negb (is_power_of_two align) then Err (LElf Align)
  else
    obind (usub bld align 1) (fun align_mask =>
    if N.land addr align_mask =? 0 then Ok addr
    else uadd bld (N.lor addr align_mask) 1).

(** src/loader/elf/mod.rs:304, 318, 326. *)
Definition PVH_NOTE_STR_SZ : N := 4.
(** src/loader/elf/mod.rs:318. *)
Definition XEN_ELFNOTE_PHYS32_ENTRY : N := 18.
(** src/loader/elf/mod.rs:326. *)
Definition ELFNOTE_ALIGN : N := 4.
(** [[b'X', b'e', b'n', b'\0']], src/loader/elf/mod.rs:353. *)
Definition xen_name : bytes := [x58; x65; x6e; x00].
(** src/loader/elf/mod.rs:350. *)
Definition is_xen (buf : bytes) : bool :=
  if list_eq_dec Byte.byte_eq_dec buf xen_name then true else false.

(** The [while] loop of src/loader/elf/mod.rs:339-382.  Result: [read_size] and the note header
    last read.  [fuel] bounds the number of evaluations of the loop condition. *)
Fixpoint note_loop (bld : build) (fuel : nat) (phdr : bytes) (read_size : N) (nhdr : bytes)
  : L (N * bytes) :=
  match fuel with
  | O => lpure (Panic OutOfFuel)
  | S fuel' =>
      if negb (read_size <? phdr_get "p_filesz" phdr) then lret (read_size, nhdr)
      else
        nhdr <- lio (fun r => read_exact r (size Elf64_Nhdr)) (LElf ReadNoteHeader) ;;
        found <- (if (nhdr_get "n_type" nhdr =? XEN_ELFNOTE_PHYS32_ENTRY)
                     && (nhdr_get "n_namesz" nhdr =? PVH_NOTE_STR_SZ)
                  then buf <- lio (fun r => read_exact r PVH_NOTE_STR_SZ) (LElf ReadNoteHeader) ;;
                       lret (is_xen buf)
                  else lret false) ;;
        if found : bool then lret (read_size, nhdr)
        else
          namesz_aligned <- lpure (align_up bld (nhdr_get "n_namesz" nhdr) ELFNOTE_ALIGN) ;;
          descsz_aligned <- lpure (align_up bld (nhdr_get "n_descsz" nhdr) ELFNOTE_ALIGN) ;;
          if (u32_max <? namesz_aligned) || (u32_max <? descsz_aligned) then lfail (LElf ElfOverflow)
          else
            read_size <- lpure
              (ok_or (match checked_add read_size (size Elf64_Nhdr) with
                      | Some x => match checked_add x namesz_aligned with
                                  | Some y => checked_add y descsz_aligned
                                  | None => None
                                  end
                      | None => None
                      end) (LElf ElfOverflow)) ;;
            target <- lpure (uadd bld (phdr_get "p_offset" phdr) read_size) ;;
            lio (fun r => seek_start r target) (LElf SeekNoteHeader) ;;;
            note_loop bld fuel' phdr read_size nhdr
  end.

(** How often the loop condition can be evaluated, see [C30_*]: every successful iteration
    consumes a 12-byte header inside the image. *)
(** For the loop of src/loader/elf/mod.rs:339-378. *)
Definition note_fuel (r : reader) : nat := S (length (rd_data r) / 12).

(** src/loader/elf/mod.rs:312-411. *)
Definition parse_elf_note (bld : build) (phdr : bytes) : L pvh_cap :=
  lio (fun r => seek_start r (phdr_get "p_offset" phdr)) (LElf SeekNoteHeader) ;;;
  res <- (fun r => note_loop bld (note_fuel r) phdr 0 (default_of Elf64_Nhdr) r) ;;
  let read_size := fst res in
  let nhdr := snd res in
  if phdr_get "p_filesz" phdr <=? read_size then lret PvhEntryNotPresent
  else
    namesz_aligned <- lpure (align_up bld (nhdr_get "n_namesz" nhdr) ELFNOTE_ALIGN) ;;
    lio (fun r => seek_cur r (Z.of_N namesz_aligned - Z.of_N PVH_NOTE_STR_SZ)%Z) (LElf SeekNoteHeader) ;;;
    if nhdr_get "n_descsz" nhdr <? 4 then lfail (LElf InvalidPvhNote)
    else
      pvh_addr_bytes <- lio (fun r => read_exact r 4) (LElf ReadNoteHeader) ;;
      lret (PvhEntryPresent (le_dec pvh_addr_bytes)).

(** src/loader/elf/mod.rs:244-251: read [n] program headers. *)
Fixpoint read_phdrs (n : nat) : L (list bytes) :=
  match n with
  | O => lret []
  | S k =>
      phdr <- lio (fun r => read_exact r (size Elf64_Phdr)) (LElf ReadProgramHeader) ;;
      rest <- read_phdrs k ;;
      lret (phdr :: rest)
  end.

(** src/loader/elf/mod.rs:254-292: the loop over the program headers, with the two fields
    of [loader_result] it updates. *)
Fixpoint load_phdrs (bld : build) (be : backend) (off : option N) (phdrs : list bytes)
  (kend : N) (cap : pvh_cap) : L (N * pvh_cap) :=
  match phdrs with
  | [] => lret (kend, cap)
  | phdr :: rest =>
      if negb (phdr_get "p_type" phdr =? PT_LOAD) || (phdr_get "p_filesz" phdr =? 0) then
        cap' <- (if phdr_get "p_type" phdr =? PT_NOTE then
                   match off with
                   | Some _ => lret PvhEntryIgnored
                   | None => parse_elf_note bld phdr
                   end
                 else lret cap) ;;
        load_phdrs bld be off rest kend cap'
      else
        lio (fun r => seek_start r (phdr_get "p_offset" phdr)) (LElf SeekKernelStart) ;;;
        mem_offset <- lpure (match off with
                             | Some k => ok_or (checked_add k (phdr_get "p_paddr" phdr))
                                           (LElf InvalidProgramHeaderAddress)
                             | None => Ok (phdr_get "p_paddr" phdr)
                             end) ;;
        lcopy be mem_offset (phdr_get "p_filesz" phdr) (LElf ReadKernelImage) ;;;
        kernel_end <- lpure (ok_or (checked_add mem_offset (phdr_get "p_memsz" phdr)) MemoryOverflow) ;;
        load_phdrs bld be off rest (N.max kend kernel_end) cap
  end.

(** src/loader/elf/mod.rs:203-300. *)
Definition elf_load (bld : build) (be : backend) (off highmem : option N) : L load_result :=
  lio (fun r => seek_start r 0) (LElf SeekElfStart) ;;;
  ehdr <- lio (fun r => read_exact r (size Elf64_Ehdr)) (LElf ReadElfHeader) ;;
  lpure (validate_header ehdr) ;;;
  (match highmem with
   | Some addr => if ehdr_get "e_entry" ehdr <? addr then lfail (LElf InvalidEntryAddress) else lret tt
   | None => lret tt
   end) ;;;
  load <- lpure (match off with
                 | Some k => ok_or (checked_add k (ehdr_get "e_entry" ehdr)) (LElf ElfOverflow)
                 | None => Ok (ehdr_get "e_entry" ehdr)
                 end) ;;
  lio (fun r => seek_start r (ehdr_get "e_phoff" ehdr)) (LElf SeekProgramHeader) ;;;
  phdrs <- read_phdrs (N.to_nat (ehdr_get "e_phnum" ehdr)) ;;
  res <- load_phdrs bld be off phdrs 0 PvhEntryIgnored ;;
  lret (mkResult load (fst res) None (snd res)).
