(** * Source: the loaders over an arbitrary image source.

    Elf.v, BzImage.v, Pe.v and [Mem.read_exact_volatile_from] are written for the [reader] of Io.v.
    Here is the same code with the source ([F: Read + ReadVolatile + Seek]) as a parameter, as in the generic
    Rust functions; at the end of the file the two are shown to be the same functions when the source is
    [reader].  RawIo.v gives a second, finer source. *)
From Verif Require Import Base Io Mem Layout Loader Elf BzImage Pe.

(** The operations of an image source.  [so_len] is a ghost (loop bounds only). *)
(** [F: Read + ReadVolatile + Seek], src/loader/mod.rs:176-184, src/loader/pe/mod.rs:218-225, src/loader/elf/mod.rs:312-315. *)
Record source (S : Type) := mkSource {
  so_len : S -> nat;
  so_seek_start : S -> N -> S * option N;
  so_seek_end : S -> S * option N;
  so_seek_cur : S -> Z -> S * option N;
  so_read_exact : S -> N -> S * option bytes;       (* Read::read_exact *)
  so_read_volatile : S -> N -> S * option bytes;    (* ReadVolatile::read_volatile, one call *)
  so_read_retry : S -> N -> S * option bytes        (* the same under vm-memory's retry_eintr! *)
}.
Arguments so_len {S}. Arguments so_seek_start {S}. Arguments so_seek_end {S}. Arguments so_seek_cur {S}.
Arguments so_read_exact {S}. Arguments so_read_volatile {S}. Arguments so_read_retry {S}.

(** The source of Io.v. *)
(** [F: Read + ReadVolatile + Seek], src/loader/mod.rs:176-184, src/loader/pe/mod.rs:218-225, src/loader/elf/mod.rs:312-315. *)
Definition reader_source : source reader :=
  mkSource reader (fun r => length (rd_data r)) seek_start seek_end seek_cur read_exact read_volatile read_volatile.

Section Generic.
Context {S : Type} (src : source S).

(** A step on the source and guest memory. *)
(** How the bodies of src/loader/elf/mod.rs:203-300, 312-416, src/loader/bzimage/mod.rs:100-185 and src/loader/pe/mod.rs:136-236 are put together (statements with [?]). *)
Definition G (E A : Type) : Type := S -> gmem -> S * gmem * outcome E A.

(** How the bodies of src/loader/elf/mod.rs:203-300, 312-416, src/loader/bzimage/mod.rs:100-185 and src/loader/pe/mod.rs:136-236 are put together (statements with [?]). *)
Definition gret {E A} (a : A) : G E A := fun s m => (s, m, Ok a).
(** How the bodies of src/loader/elf/mod.rs:203-300, 312-416, src/loader/bzimage/mod.rs:100-185 and src/loader/pe/mod.rs:136-236 are put together (statements with [?]). *)
Definition gfail {E A} (e : E) : G E A := fun s m => (s, m, Err e).
(** How the bodies of src/loader/elf/mod.rs:203-300, 312-416, src/loader/bzimage/mod.rs:100-185 and src/loader/pe/mod.rs:136-236 are put together (statements with [?]). *)
Definition gbind {E A B} (x : G E A) (f : A -> G E B) : G E B := fun s m =>
  match x s m with
  | (s', m', Ok a) => f a s' m'
  | (s', m', Err e) => (s', m', Err e)
  | (s', m', Panic p) => (s', m', Panic p)
  end.
(** How the bodies of src/loader/elf/mod.rs:203-300, 312-416, src/loader/bzimage/mod.rs:100-185 and src/loader/pe/mod.rs:136-236 are put together (statements with [?]). *)
Definition gpure {E A} (x : outcome E A) : G E A := fun s m => (s, m, x).
(** How the bodies of src/loader/elf/mod.rs:203-300, 312-416, src/loader/bzimage/mod.rs:100-185 and src/loader/pe/mod.rs:136-236 are put together (statements with [?]). *)
Definition gio {E A} (op : S -> S * option A) (e : E) : G E A := fun s m =>
  match op s with
  | (s', Some a) => (s', m, Ok a)
  | (s', None) => (s', m, Err e)
  end.

Notation "x <~ a ;; b" := (gbind a (fun x => b)) (at level 100, a at next level, right associativity).
Notation "a ;;~ b" := (gbind a (fun _ => b)) (at level 100, right associativity).

(** vm-memory's [Bytes::read_volatile_from] and [read_exact_volatile_from], as in Mem.v. *)
(** Under the calls at src/loader/elf/mod.rs:286, src/loader/bzimage/mod.rs:175, src/loader/pe/mod.rs:198, 234. *)
Fixpoint gread_loop (be : backend) (fuel : nat) (s : S) (m : gmem) (cur left total : N)
  : S * gmem * outcome unit N :=
  match fuel with
  | O => (s, m, Panic OutOfFuel)
  | Datatypes.S fuel' =>
      match find_region m cur with
      | None =>
          (s, m, match be with
                 | TryAccess => if total =? 0 then Err tt else Ok total
                 | GetSlices => Err tt
                 end)
      | Some rg =>
          let cap := r_base rg + r_len rg - cur in
          let n := N.min cap left in
          match so_read_retry src s n with
          | (s', None) => (s', m, Err tt)
          | (s', Some bs) =>
              let k := lenN bs in
              let m' := mem_store m cur bs in
              let adv := match be with TryAccess => k | GetSlices => n end in
              if adv =? 0 then (s', m', Ok total)
              else if adv =? left then (s', m', Ok (total + k))
              else match next_addr cur adv with
                   | None => (s', m', Err tt)
                   | Some cur' => gread_loop be fuel' s' m' cur' (left - adv) (total + k)
                   end
          end
      end
  end.
(** Under the calls at src/loader/elf/mod.rs:286, src/loader/bzimage/mod.rs:175, src/loader/pe/mod.rs:198, 234. *)
Definition gread_exact_volatile_from (be : backend) (s : S) (m : gmem) (a count : N)
  : S * gmem * outcome unit unit :=
  match be, count with
  | GetSlices, 0 => (s, m, Ok tt)
  | _, _ =>
      match gread_loop be (Datatypes.S (so_len src s + length (regions m))) s m a count 0 with
      | (s', m', Ok n) => (s', m', if n =? count then Ok tt else Err tt)
      | (s', m', Err e) => (s', m', Err e)
      | (s', m', Panic p) => (s', m', Panic p)
      end
  end.
(** Under the calls at src/loader/elf/mod.rs:286, src/loader/bzimage/mod.rs:175, src/loader/pe/mod.rs:198, 234. *)
Definition gcopy (be : backend) (a n : N) (e : lerror) : G lerror unit := fun s m =>
  match gread_exact_volatile_from be s m a n with
  | (s', m', Ok _) => (s', m', Ok tt)
  | (s', m', Err _) => (s', m', Err e)
  | (s', m', Panic p) => (s', m', Panic p)
  end.

(** src/loader/elf/mod.rs:339-382. *)
Fixpoint gnote_loop (bld : build) (fuel : nat) (phdr : bytes) (read_size : N) (nhdr : bytes)
  : G lerror (N * bytes) :=
  match fuel with
  | O => gpure (Panic OutOfFuel)
  | Datatypes.S fuel' =>
      if negb (read_size <? phdr_get "p_filesz" phdr) then gret (read_size, nhdr)
      else
        nhdr <~ gio (fun s => so_read_exact src s (size Elf64_Nhdr)) (LElf ReadNoteHeader) ;;
        found <~ (if (nhdr_get "n_type" nhdr =? XEN_ELFNOTE_PHYS32_ENTRY)
                     && (nhdr_get "n_namesz" nhdr =? PVH_NOTE_STR_SZ)
                  then buf <~ gio (fun s => so_read_exact src s PVH_NOTE_STR_SZ) (LElf ReadNoteHeader) ;;
                       gret (is_xen buf)
                  else gret false) ;;
        if found : bool then gret (read_size, nhdr)
        else
          namesz_aligned <~ gpure (align_up bld (nhdr_get "n_namesz" nhdr) ELFNOTE_ALIGN) ;;
          descsz_aligned <~ gpure (align_up bld (nhdr_get "n_descsz" nhdr) ELFNOTE_ALIGN) ;;
          if (u32_max <? namesz_aligned) || (u32_max <? descsz_aligned) then gfail (LElf ElfOverflow)
          else
            read_size <~ gpure
              (ok_or (match checked_add read_size (size Elf64_Nhdr) with
                      | Some x => match checked_add x namesz_aligned with
                                  | Some y => checked_add y descsz_aligned
                                  | None => None
                                  end
                      | None => None
                      end) (LElf ElfOverflow)) ;;
            target <~ gpure (uadd bld (phdr_get "p_offset" phdr) read_size) ;;
            gio (fun s => so_seek_start src s target) (LElf SeekNoteHeader) ;;~
            gnote_loop bld fuel' phdr read_size nhdr
  end.

(** src/loader/elf/mod.rs:312-411. *)
Definition gparse_elf_note (bld : build) (phdr : bytes) : G lerror pvh_cap :=
  gio (fun s => so_seek_start src s (phdr_get "p_offset" phdr)) (LElf SeekNoteHeader) ;;~
  res <~ (fun s => gnote_loop bld (Datatypes.S (so_len src s / 12)) phdr 0 (default_of Elf64_Nhdr) s) ;;
  let read_size := fst res in
  let nhdr := snd res in
  if phdr_get "p_filesz" phdr <=? read_size then gret PvhEntryNotPresent
  else
    namesz_aligned <~ gpure (align_up bld (nhdr_get "n_namesz" nhdr) ELFNOTE_ALIGN) ;;
    gio (fun s => so_seek_cur src s (Z.of_N namesz_aligned - Z.of_N PVH_NOTE_STR_SZ)%Z) (LElf SeekNoteHeader) ;;~
    if nhdr_get "n_descsz" nhdr <? 4 then gfail (LElf InvalidPvhNote)
    else
      pvh_addr_bytes <~ gio (fun s => so_read_exact src s 4) (LElf ReadNoteHeader) ;;
      gret (PvhEntryPresent (le_dec pvh_addr_bytes)).

(** src/loader/elf/mod.rs:244-251. *)
Fixpoint gread_phdrs (n : nat) : G lerror (list bytes) :=
  match n with
  | O => gret []
  | Datatypes.S k =>
      phdr <~ gio (fun s => so_read_exact src s (size Elf64_Phdr)) (LElf ReadProgramHeader) ;;
      rest <~ gread_phdrs k ;;
      gret (phdr :: rest)
  end.

(** src/loader/elf/mod.rs:254-292. *)
Fixpoint gload_phdrs (bld : build) (be : backend) (off : option N) (phdrs : list bytes)
  (kend : N) (cap : pvh_cap) : G lerror (N * pvh_cap) :=
  match phdrs with
  | [] => gret (kend, cap)
  | phdr :: rest =>
      if negb (phdr_get "p_type" phdr =? PT_LOAD) || (phdr_get "p_filesz" phdr =? 0) then
        cap' <~ (if phdr_get "p_type" phdr =? PT_NOTE then
                   match off with
                   | Some _ => gret PvhEntryIgnored
                   | None => gparse_elf_note bld phdr
                   end
                 else gret cap) ;;
        gload_phdrs bld be off rest kend cap'
      else
        gio (fun s => so_seek_start src s (phdr_get "p_offset" phdr)) (LElf SeekKernelStart) ;;~
        mem_offset <~ gpure (match off with
                             | Some k => ok_or (checked_add k (phdr_get "p_paddr" phdr))
                                           (LElf InvalidProgramHeaderAddress)
                             | None => Ok (phdr_get "p_paddr" phdr)
                             end) ;;
        gcopy be mem_offset (phdr_get "p_filesz" phdr) (LElf ReadKernelImage) ;;~
        kernel_end <~ gpure (ok_or (checked_add mem_offset (phdr_get "p_memsz" phdr)) MemoryOverflow) ;;
        gload_phdrs bld be off rest (N.max kend kernel_end) cap
  end.

(** src/loader/elf/mod.rs:203-300. *)
Definition gelf_load (bld : build) (be : backend) (off highmem : option N) : G lerror load_result :=
  gio (fun s => so_seek_start src s 0) (LElf SeekElfStart) ;;~
  ehdr <~ gio (fun s => so_read_exact src s (size Elf64_Ehdr)) (LElf ReadElfHeader) ;;
  gpure (validate_header ehdr) ;;~
  (match highmem with
   | Some addr => if ehdr_get "e_entry" ehdr <? addr then gfail (LElf InvalidEntryAddress) else gret tt
   | None => gret tt
   end) ;;~
  load <~ gpure (match off with
                 | Some k => ok_or (checked_add k (ehdr_get "e_entry" ehdr)) (LElf ElfOverflow)
                 | None => Ok (ehdr_get "e_entry" ehdr)
                 end) ;;
  gio (fun s => so_seek_start src s (ehdr_get "e_phoff" ehdr)) (LElf SeekProgramHeader) ;;~
  phdrs <~ gread_phdrs (N.to_nat (ehdr_get "e_phnum" ehdr)) ;;
  res <~ gload_phdrs bld be off phdrs 0 PvhEntryIgnored ;;
  gret (mkResult load (fst res) None (snd res)).

(** src/loader/bzimage/mod.rs:122-125: a direct call of [read_volatile], outside of any retry loop. *)
Definition gread_header (s : S) : S * option bytes :=
  match so_read_volatile src s (size setup_header) with
  | (s', Some bs) => (s', Some (patch (default_of setup_header) 0 bs))
  | (s', None) => (s', None)
  end.

(** src/loader/bzimage/mod.rs:105-184. *)
Definition gbz_load (be : backend) (off highmem : option N) : G lerror load_result :=
  kernel_size0 <~ gio (so_seek_end src) (LBz SeekBzImageEnd) ;;
  gio (fun s => so_seek_start src s 0x1F1) (LBz SeekBzImageHeader) ;;~
  boot_header <~ gio gread_header (LBz ReadBzImageHeader) ;;
  if negb (hdr_get "header" boot_header =? 0x53726448) then gfail (LBz InvalidBzImage)
  else if (hdr_get "version" boot_header <? 0x0200)
          || (N.land (hdr_get "loadflags" boot_header) 1 =? 0) then gfail (LBz InvalidBzImage)
  else
    let setup_sects := hdr_get "setup_sects" boot_header in
    let setup_size0 := if setup_sects =? 0 then 4 else setup_sects in
    setup_size <~ gpure (ok_or (match checked_add setup_size0 1 with
                                | Some x => checked_mul x 512
                                | None => None
                                end) (LBz BzOverflow)) ;;
    kernel_size <~ gpure (ok_or (checked_sub kernel_size0 setup_size) (LBz BzUnderflow)) ;;
    if match highmem with
       | Some h => hdr_get "code32_start" boot_header <? h
       | None => false
       end then gfail InvalidKernelStartAddress
    else
      let mem_offset := match off with
                        | Some start => start
                        | None => hdr_get "code32_start" boot_header
                        end in
      let boot_header' := set setup_header [Fld "code32_start"] mem_offset boot_header in
      gio (fun s => so_seek_start src s setup_size) (LBz SeekBzImageCompressedKernel) ;;~
      gcopy be mem_offset kernel_size (LBz ReadBzImageCompressedKernel) ;;~
      kernel_end <~ gpure (ok_or (checked_add mem_offset kernel_size) MemoryOverflow) ;;
      gret (mkResult mem_offset kernel_end (Some boot_header') PvhEntryIgnored).

(** src/loader/pe/mod.rs:136-207. *)
Definition gpe_load (a : arch) (be : backend) (off highmem : option N) : G lerror load_result :=
  kernel_size <~ gio (so_seek_end src) (LPe SeekImageEnd) ;;
  gio (fun s => so_seek_start src s 0) (LPe SeekImageHeader) ;;~
  hdr <~ gio (fun s => so_read_exact src s (size (image_header a))) (LPe ReadImageHeader) ;;
  if negb (magic_ok a hdr) then gfail (LPe InvalidImageMagicNumber)
  else if match off with
          | Some k => negb (k mod 0x200000 =? 0)
          | None => false
          end then gfail (LPe InvalidBaseAddrAlignment)
  else
    mem_offset <~ gpure (ok_or (checked_add (match off with Some k => k | None => 0 end)
                                            (text_offset a hdr)) (LPe InvalidImage)) ;;
    gio (fun s => so_seek_start src s 0) (LPe SeekImageHeader) ;;~
    gcopy be mem_offset kernel_size (LPe PeReadKernelImage) ;;~
    kernel_end <~ gpure (ok_or (checked_add mem_offset kernel_size) MemoryOverflow) ;;
    gret (mkResult mem_offset kernel_end None PvhEntryIgnored).

(** src/loader/pe/mod.rs:218-236. *)
Definition gload_dtb (be : backend) (addr : N) : G lerror unit :=
  dtb_size <~ gio (so_seek_end src) (LPe SeekDtbEnd) ;;
  if 0x200000 <? dtb_size then gfail (LPe DtbTooBig)
  else
    gio (fun s => so_seek_start src s 0) (LPe SeekDtbStart) ;;~
    gcopy be addr dtb_size (LPe ReadDtbImage).
End Generic.

(** Over [reader] these are the loaders of Elf.v, BzImage.v and Pe.v. *)
Lemma gelf_load_reader : @gelf_load reader reader_source = elf_load.
Proof. reflexivity. Qed.
Lemma gbz_load_reader : @gbz_load reader reader_source = bz_load.
Proof. reflexivity. Qed.
Lemma gpe_load_reader : @gpe_load reader reader_source = pe_load.
Proof. reflexivity. Qed.
Lemma gload_dtb_reader : @gload_dtb reader reader_source = load_dtb.
Proof. reflexivity. Qed.
