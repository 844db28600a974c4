(** * Host: the crate on a host whose [usize] is not 64 bits wide.

    The other files take [usize] to be 64-bit.  The x86 parts of the crate are also compiled for 32-bit x86
    ([cfg(any(target_arch = "x86", target_arch = "x86_64"))], src/loader/mod.rs:26-44, src/configurator/mod.rs), and
    src/loader/elf/mod.rs:370-371 says it cares.  Here is every function of those parts in which the width of [usize]
    matters, with the number [usz] of values of [usize] as a parameter: [as usize] conversions, [usize] additions and
    multiplications, and the limit isize::MAX on the size of a [Vec].  Everything else is taken from the other files
    unchanged.  The arm64 and riscv64 parts (src/loader/pe, src/configurator/fdt.rs) only exist on 64-bit hosts.
    [load_cmdline] and the configurators do no [usize] arithmetic besides taking lengths, and are the same. *)
From Verif Require Import Base Io Mem Layout Text Cmdline Loader Elf BzImage BootParams.
Open Scope loader_scope.

Section Host.
Context (usz : N).

(** [x as usize]. *)
(** src/loader/elf/mod.rs:157, 245, 286, 339-376, 397, src/loader/bzimage/mod.rs:116, 137, src/loader/pe/mod.rs:147, 228, src/configurator/mod.rs:416. *)
Definition as_usize (x : N) : N := x mod usz.
(** [usize::checked_add], [usize::checked_mul]. *)
(** src/loader/elf/mod.rs:366-370, src/cmdline/mod.rs:281, 337, 537-545. *)
Definition usize_add (a b : N) : option N := if a + b <? usz then Some (a + b) else None.
(** src/loader/bzimage/mod.rs:142-143. *)
Definition usize_mul (a b : N) : option N := if a * b <? usz then Some (a * b) else None.
(** Plain [+] on [usize]. *)
(** src/cmdline/mod.rs:356-359, src/configurator/mod.rs:417. *)
Definition usize_plus {E} (overflow_checks : build) (a b : N) : outcome E N :=
  if a + b <? usz then Ok (a + b)
  else if overflow_checks then Panic ArithOverflow
  else Ok ((a + b) mod usz).

(** ** ELF *)
(** src/loader/elf/mod.rs:142-161. *)
Definition host_validate_header (ehdr : bytes) : outcome lerror unit :=
  if negb (e_ident ehdr EI_MAG0 =? ELFMAG0) || negb (e_ident ehdr EI_MAG1 =? ELFMAG1)
     || negb (e_ident ehdr EI_MAG2 =? ELFMAG2) || negb (e_ident ehdr EI_MAG3 =? ELFMAG3)
  then Err (LElf InvalidElfMagicNumber)
  else if negb (e_ident ehdr EI_DATA =? ELFDATA2LSB) then Err (LElf BigEndianElfOnLittle)
  else if negb (as_usize (ehdr_get "e_phentsize" ehdr) =? size Elf64_Phdr) then Err (LElf InvalidProgramHeaderSize)
  else if as_usize (ehdr_get "e_phoff" ehdr) <? size Elf64_Ehdr then Err (LElf InvalidProgramHeaderOffset)
  else Ok tt.

(** src/loader/elf/mod.rs:339-382. *)
Fixpoint host_note_loop (bld : build) (fuel : nat) (phdr : bytes) (read_size : N) (nhdr : bytes)
  : L (N * bytes) :=
  match fuel with
  | O => lpure (Panic OutOfFuel)
  | S fuel' =>
      if negb (read_size <? as_usize (phdr_get "p_filesz" phdr)) then lret (read_size, nhdr)
      else
        nhdr <- lio (fun r => read_exact r (size Elf64_Nhdr)) (LElf ReadNoteHeader) ;;
        found <- (if (nhdr_get "n_type" nhdr =? XEN_ELFNOTE_PHYS32_ENTRY)
                     && (as_usize (nhdr_get "n_namesz" nhdr) =? PVH_NOTE_STR_SZ)
                  then buf <- lio (fun r => read_exact r PVH_NOTE_STR_SZ) (LElf ReadNoteHeader) ;;
                       lret (is_xen buf)
                  else lret false) ;;
        if found : bool then lret (read_size, nhdr)
        else
          namesz_aligned <- lpure (align_up bld (nhdr_get "n_namesz" nhdr) ELFNOTE_ALIGN) ;;
          descsz_aligned <- lpure (align_up bld (nhdr_get "n_descsz" nhdr) ELFNOTE_ALIGN) ;;
          if (u32_max <? namesz_aligned) || (u32_max <? descsz_aligned) then lfail (LElf ElfOverflow)
          else
            read_size <- lpure
              (ok_or (match usize_add read_size (size Elf64_Nhdr) with
                      | Some x => match usize_add x (as_usize namesz_aligned) with
                                  | Some y => usize_add y (as_usize descsz_aligned)
                                  | None => None
                                  end
                      | None => None
                      end) (LElf ElfOverflow)) ;;
            target <- lpure (uadd bld (phdr_get "p_offset" phdr) read_size) ;;
            lio (fun r => seek_start r target) (LElf SeekNoteHeader) ;;;
            host_note_loop bld fuel' phdr read_size nhdr
  end.

(** src/loader/elf/mod.rs:312-411. *)
Definition host_parse_elf_note (bld : build) (phdr : bytes) : L pvh_cap :=
  lio (fun r => seek_start r (phdr_get "p_offset" phdr)) (LElf SeekNoteHeader) ;;;
  res <- (fun r => host_note_loop bld (note_fuel r) phdr 0 (default_of Elf64_Nhdr) r) ;;
  let read_size := fst res in
  let nhdr := snd res in
  if as_usize (phdr_get "p_filesz" phdr) <=? read_size then lret PvhEntryNotPresent
  else
    namesz_aligned <- lpure (align_up bld (nhdr_get "n_namesz" nhdr) ELFNOTE_ALIGN) ;;
    lio (fun r => seek_cur r (Z.of_N namesz_aligned - Z.of_N PVH_NOTE_STR_SZ)%Z) (LElf SeekNoteHeader) ;;;
    if as_usize (nhdr_get "n_descsz" nhdr) <? 4 then lfail (LElf InvalidPvhNote)
    else
      pvh_addr_bytes <- lio (fun r => read_exact r 4) (LElf ReadNoteHeader) ;;
      lret (PvhEntryPresent (le_dec pvh_addr_bytes)).

(** src/loader/elf/mod.rs:254-292. *)
Fixpoint host_load_phdrs (bld : build) (be : backend) (off : option N) (phdrs : list bytes)
  (kend : N) (cap : pvh_cap) : L (N * pvh_cap) :=
  match phdrs with
  | [] => lret (kend, cap)
  | phdr :: rest =>
      if negb (phdr_get "p_type" phdr =? PT_LOAD) || (phdr_get "p_filesz" phdr =? 0) then
        cap' <- (if phdr_get "p_type" phdr =? PT_NOTE then
                   match off with
                   | Some _ => lret PvhEntryIgnored
                   | None => host_parse_elf_note bld phdr
                   end
                 else lret cap) ;;
        host_load_phdrs bld be off rest kend cap'
      else
        lio (fun r => seek_start r (phdr_get "p_offset" phdr)) (LElf SeekKernelStart) ;;;
        mem_offset <- lpure (match off with
                             | Some k => ok_or (checked_add k (phdr_get "p_paddr" phdr))
                                           (LElf InvalidProgramHeaderAddress)
                             | None => Ok (phdr_get "p_paddr" phdr)
                             end) ;;
        lcopy be mem_offset (as_usize (phdr_get "p_filesz" phdr)) (LElf ReadKernelImage) ;;;
        kernel_end <- lpure (ok_or (checked_add mem_offset (phdr_get "p_memsz" phdr)) MemoryOverflow) ;;
        host_load_phdrs bld be off rest (N.max kend kernel_end) cap
  end.

(** src/loader/elf/mod.rs:203-300. *)
Definition host_elf_load (bld : build) (be : backend) (off highmem : option N) : L load_result :=
  lio (fun r => seek_start r 0) (LElf SeekElfStart) ;;;
  ehdr <- lio (fun r => read_exact r (size Elf64_Ehdr)) (LElf ReadElfHeader) ;;
  lpure (host_validate_header ehdr) ;;;
  (match highmem with
   | Some addr => if ehdr_get "e_entry" ehdr <? addr then lfail (LElf InvalidEntryAddress) else lret tt
   | None => lret tt
   end) ;;;
  load <- lpure (match off with
                 | Some k => ok_or (checked_add k (ehdr_get "e_entry" ehdr)) (LElf ElfOverflow)
                 | None => Ok (ehdr_get "e_entry" ehdr)
                 end) ;;
  lio (fun r => seek_start r (ehdr_get "e_phoff" ehdr)) (LElf SeekProgramHeader) ;;;
  phdrs <- read_phdrs (N.to_nat (as_usize (ehdr_get "e_phnum" ehdr))) ;;
  res <- host_load_phdrs bld be off phdrs 0 PvhEntryIgnored ;;
  lret (mkResult load (fst res) None (snd res)).

(** ** bzImage, src/loader/bzimage/mod.rs:105-184 *)
Definition host_bz_load (be : backend) (off highmem : option N) : L load_result :=
  image_size <- lio seek_end (LBz SeekBzImageEnd) ;;
  let kernel_size0 := as_usize image_size in
  lio (fun r => seek_start r 0x1F1) (LBz SeekBzImageHeader) ;;;
  boot_header <- lio read_header (LBz ReadBzImageHeader) ;;
  if negb (hdr_get "header" boot_header =? 0x53726448) then lfail (LBz InvalidBzImage)
  else if (hdr_get "version" boot_header <? 0x0200)
          || (N.land (hdr_get "loadflags" boot_header) 1 =? 0) then lfail (LBz InvalidBzImage)
  else
    let setup_sects := as_usize (hdr_get "setup_sects" boot_header) in
    let setup_size0 := if setup_sects =? 0 then 4 else setup_sects in
    setup_size <- lpure (ok_or (match usize_add setup_size0 1 with
                                | Some x => usize_mul x 512
                                | None => None
                                end) (LBz BzOverflow)) ;;
    kernel_size <- lpure (ok_or (checked_sub kernel_size0 setup_size) (LBz BzUnderflow)) ;;
    if match highmem with
       | Some h => hdr_get "code32_start" boot_header <? h
       | None => false
       end then lfail InvalidKernelStartAddress
    else
      let mem_offset := match off with
                        | Some start => start
                        | None => hdr_get "code32_start" boot_header
                        end in
      let boot_header' := set setup_header [Fld "code32_start"] mem_offset boot_header in
      lio (fun r => seek_start r setup_size) (LBz SeekBzImageCompressedKernel) ;;;
      lcopy be mem_offset kernel_size (LBz ReadBzImageCompressedKernel) ;;;
      kernel_end <- lpure (ok_or (checked_add mem_offset kernel_size) MemoryOverflow) ;;
      lret (mkResult mem_offset kernel_end (Some boot_header') PvhEntryIgnored).

(** ** The command line builder *)
(** src/cmdline/mod.rs:353-363. *)
Definition host_repr_size (bld : build) (c : cmdline) : outcome cerror N :=
  obind (usize_plus bld (str_len (boot_args c)) 1) (fun cmdline_size =>
  match init_args c with
  | [] => Ok cmdline_size
  | _ => obind (usize_plus bld (str_len INIT_ARGS_SEPARATOR) (str_len (init_args c))) (fun t =>
         usize_plus bld cmdline_size t)
  end).

(** src/cmdline/mod.rs:265-295. *)
Definition host_insert_str (bld : build) (c : cmdline) (slug : text) : cres :=
  let s := trim slug in
  ctry c (valid_str s) (fun _ =>
  ctry c (host_repr_size bld c) (fun size0 =>
  ctry c (if is_empty (boot_args c) then Ok size0 else ok_or (usize_add size0 1) TooLarge) (fun size1 =>
  ctry c (ok_or (usize_add size1 (str_len s)) TooLarge) (fun size2 =>
  if capacity c <? size2 then (c, Err TooLarge)
  else
    let c1 := if is_empty (boot_args c) then c else push_boot c [32] in
    (push_boot c1 s, Ok tt))))).

(** src/cmdline/mod.rs:317-351. *)
Definition host_insert_init_args (bld : build) (c : cmdline) (slug : text) : cres :=
  let s := trim slug in
  ctry c (valid_str s) (fun _ =>
  ctry c (host_repr_size bld c) (fun size0 =>
  ctry c (ok_or (usize_add size0 (if is_empty (init_args c) then str_len INIT_ARGS_SEPARATOR else 1))
            TooLarge) (fun size1 =>
  ctry c (ok_or (usize_add size1 (str_len s)) TooLarge) (fun size2 =>
  if capacity c <? size2 then (c, Err TooLarge)
  else
    let c1 := if is_empty (init_args c) then c else push_init c [32] in
    (push_init c1 s, Ok tt))))).

(** src/cmdline/mod.rs:194-204, 226-247, 431-452. *)
Definition host_insert (bld : build) (c : cmdline) (k v : text) : cres :=
  ctry c (valid_key k) (fun _ =>
  ctry c (valid_value v) (fun _ =>
  host_insert_str bld c (k ++ [61] ++ v))).
(** src/cmdline/mod.rs:226-247. *)
Definition host_insert_multiple (bld : build) (c : cmdline) (k : text) (vals : list text) : cres :=
  ctry c (valid_key k) (fun _ =>
  match vals with
  | [] => (c, Err (MissingVal k))
  | _ =>
      ctry c (collect_values vals) (fun l =>
      host_insert_str bld c (k ++ [61] ++ join [44] l))
  end).
(** src/cmdline/mod.rs:431-452. *)
Definition host_add_virtio_mmio_device (bld : build) (c : cmdline) (size baseaddr irq : N) (id : option N) : cres :=
  if size =? 0 then (c, Err MmioSize)
  else
    let device_str := txt "virtio_mmio.device=" ++ guestusize_to_str size ++ txt "@0x" ++
                      fmt_hex baseaddr ++ txt ":" ++ fmt_dec irq in
    let device_str' := match id with
                       | Some id => device_str ++ txt ":" ++ fmt_dec id
                       | None => device_str
                       end in
    host_insert_str bld c device_str'.

(** src/cmdline/mod.rs:503-558. *)
Definition host_try_from (raw : text) (cap : N) : outcome cerror cmdline :=
  if cap =? 0 then Err InvalidCapacity
  else
    let (boot0, init0) := split_cmdline raw in
    let boot := trim boot0 in
    let init := trim init0 in
    obind (ok_or (usize_add (str_len boot) 1) TooLarge) (fun size0 =>
    obind (match init with
           | [] => Ok size0
           | _ =>
               obind (ok_or (usize_add size0 (str_len INIT_ARGS_SEPARATOR)) TooLarge) (fun size1 =>
               ok_or (usize_add size1 (str_len init)) TooLarge)
           end) (fun size2 =>
    if cap <? size2 then Err InvalidCapacity
    else Ok (mkCmdline boot init cap))).

(** The public builder calls of src/cmdline/mod.rs:194-452. *)
Definition host_run_op (bld : build) (c : cmdline) (o : op) : cres :=
  match o with
  | OpInsert k v => host_insert bld c k v
  | OpMultiple k vs => host_insert_multiple bld c k vs
  | OpStr s => host_insert_str bld c s
  | OpInit s => host_insert_init_args bld c s
  | OpVirtio size base irq id => host_add_virtio_mmio_device bld c size base irq id
  end.
(** src/cmdline/mod.rs:166-176, 503-558. *)
Definition host_run_ctor (k : ctor) : outcome cerror cmdline :=
  match k with
  | New cap => cmdline_new cap
  | Parse raw cap => host_try_from raw cap
  end.

(** ** Boot parameter lists *)
(** [Vec::resize(n, 0)] with isize::MAX = usz / 2 - 1. *)
(** Called at src/configurator/mod.rs:418. *)
Definition host_vec_resize (v : bytes) (n : N) : outcome berror bytes :=
  if n <=? lenN v then Ok (slice v 0 n)
  else if usz / 2 - 1 <? n then Panic CapacityOverflow
  else Ok (v ++ zeros (n - lenN v)).

(** src/configurator/mod.rs:399-421. *)
Definition host_add_to_list (bld : build) (elem : bytes) (elem_start_opt : option N)
  (bytes_acc : bytes) (list_start_opt : option N) : bytes * option N * outcome berror N :=
  let ls := match list_start_opt with None => elem_start_opt | Some _ => list_start_opt end in
  match ls with
  | None => (bytes_acc, ls, Err MissingStartAddress)
  | Some list_start =>
      match checked_add list_start (lenN bytes_acc) with
      | None => (bytes_acc, ls, Err BOverflow)
      | Some next =>
          let elem_start := match elem_start_opt with Some a => a | None => next end in
          match checked_sub elem_start list_start with
          | None => (bytes_acc, ls, Err InvalidAddress)
          | Some elem_off64 =>
              let elem_off := as_usize elem_off64 in
              match usize_plus (E := berror) bld elem_off (lenN elem) with
              | Ok elem_end =>
                  match host_vec_resize bytes_acc (N.max elem_end (lenN bytes_acc)) with
                  | Ok v =>
                      match vec_splice v elem_off elem_end elem with
                      | Ok v' => (v', ls, Ok elem_start)
                      | Err e => (v, ls, Err e)
                      | Panic p => (v, ls, Panic p)
                      end
                  | Err e => (bytes_acc, ls, Err e)
                  | Panic p => (bytes_acc, ls, Panic p)
                  end
              | Err e => (bytes_acc, ls, Err e)
              | Panic p => (bytes_acc, ls, Panic p)
              end
          end
      end
  end.

(** src/configurator/mod.rs:274-285, 383-394. *)
Definition host_add_section (bld : build) (p : boot_info) (elem : bytes) (addr : option N)
  : boot_info * outcome berror N :=
  match host_add_to_list bld elem addr (or_empty (sections p)) (sections_start p) with
  | (v, s, o) => (mkBoot (header p) (header_start p) (Some v) s (modules p) (modules_start p), o)
  end.
(** src/configurator/mod.rs:383-394. *)
Definition host_add_module (bld : build) (p : boot_info) (elem : bytes) (addr : option N)
  : boot_info * outcome berror N :=
  match host_add_to_list bld elem addr (or_empty (modules p)) (modules_start p) with
  | (v, s, o) => (mkBoot (header p) (header_start p) (sections p) (sections_start p) (Some v) s, o)
  end.

End Host.

(** ** Struct layouts on 32-bit x86, where [u64] is aligned to 4 bytes only

    [align], [place], [size], [find_field] and [locate] of Layout.v with the alignment [a64] of [u64]
    as a parameter. *)
Section Align.
Context (a64 : N).
(** Rust layout rules of [repr(C)], needed for the structures of src/loader_gen/x86_64/bootparam.rs:107-387, start_info.rs:15-56, elf.rs:519-786 and src/loader/pe/mod.rs:77-122. *)
Fixpoint align_at (t : ty) : N :=
  match t with
  | U8 => 1 | U16 => 2 | U32 => 4 | U64 => a64
  | Arr _ t => align_at t
  | Struct true _ => 1
  | Struct false fs =>
      (fix go (fs : list (string * ty)) : N :=
         match fs with
         | [] => 1
         | (_, t) :: r => N.max (align_at t) (go r)
         end) fs
  end.
(** Rust layout rules of [repr(C)], needed for the structures of src/loader_gen/x86_64/bootparam.rs:107-387, start_info.rs:15-56, elf.rs:519-786 and src/loader/pe/mod.rs:77-122. *)
Definition place_at (packed : bool) (o : N) (t : ty) : N :=
  if packed then o else round_up o (align_at t).
(** Rust layout rules of [repr(C)], needed for the structures of src/loader_gen/x86_64/bootparam.rs:107-387, start_info.rs:15-56, elf.rs:519-786 and src/loader/pe/mod.rs:77-122. *)
Fixpoint size_at (t : ty) : N :=
  match t with
  | U8 => 1 | U16 => 2 | U32 => 4 | U64 => 8
  | Arr n t => n * size_at t
  | Struct p fs =>
      let e := (fix go (o : N) (fs : list (string * ty)) : N :=
         match fs with
         | [] => o
         | (_, t) :: r => go (place_at p o t + size_at t) r
         end) 0 fs in
      if p then e else round_up e (align_at (Struct p fs))
  end.
(** Rust layout rules of [repr(C)], needed for the structures of src/loader_gen/x86_64/bootparam.rs:107-387, start_info.rs:15-56, elf.rs:519-786 and src/loader/pe/mod.rs:77-122. *)
Fixpoint find_field_at (p : bool) (o : N) (fs : list (string * ty)) (name : string) : option (N * ty) :=
  match fs with
  | [] => None
  | (n, t) :: r =>
      if String.eqb n name then Some (place_at p o t, t)
      else find_field_at p (place_at p o t + size_at t) r name
  end.
(** Rust layout rules of [repr(C)], needed for the structures of src/loader_gen/x86_64/bootparam.rs:107-387, start_info.rs:15-56, elf.rs:519-786 and src/loader/pe/mod.rs:77-122. *)
Fixpoint locate_at (t : ty) (path : list step) : option (N * ty) :=
  match path with
  | [] => Some (0, t)
  | Fld name :: r =>
      match t with
      | Struct p fs =>
          match find_field_at p 0 fs name with
          | Some (o, t') =>
              match locate_at t' r with
              | Some (o', t'') => Some (o + o', t'')
              | None => None
              end
          | None => None
          end
      | _ => None
      end
  | Idx i :: r =>
      match t with
      | Arr n t' =>
          if i <? n then
            match locate_at t' r with
            | Some (o', t'') => Some (i * size_at t' + o', t'')
            | None => None
            end
          else None
      | _ => None
      end
  end.
End Align.
