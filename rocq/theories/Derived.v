(** * Derived: what [#\[derive(Default, PartialEq)\]] generates for the crate's structures and results. *)
From Verif Require Import Base Layout Loader BootParams.
Local Open Scope list_scope.

(** [#\[derive(PartialEq)\]] on a structure (src/loader_gen/x86_64/bootparam.rs:107-354, start_info.rs:21-45, elf.rs:524-757):
    field by field in declaration order, arrays element by element, integers by value. *)
Fixpoint derived_eq (t : ty) (a b : bytes) {struct t} : bool :=
  match t with
  | Arr n t' =>
      forallb (fun i => derived_eq t' (slice a (i * size t') (size t')) (slice b (i * size t') (size t')))
        (map N.of_nat (seq 0 (N.to_nat n)))
  | Struct p fs =>
      (fix go (o : N) (fs : list (string * ty)) : bool :=
         match fs with
         | [] => true
         | (_, t') :: r =>
             derived_eq t' (slice a (place p o t') (size t')) (slice b (place p o t') (size t')) &&
             go (place p o t' + size t') r
         end) 0 fs
  | _ => le_dec a =? le_dec b
  end.

(** [#\[derive(Default)\]]: every field gets its default, integers 0; what was in the memory of the structure
    before, [g], stays where there is no field. *)
(** src/loader_gen/x86_64/start_info.rs:15-56, elf.rs:519-786, src/loader/pe/mod.rs:77-122, bootparam.rs:107-352. *)
Fixpoint default_over (t : ty) (g : bytes) {struct t} : bytes :=
  match t with
  | Arr n t' =>
      fold_left (fun acc i => patch acc (i * size t') (default_over t' (slice acc (i * size t') (size t'))))
        (map N.of_nat (seq 0 (N.to_nat n))) g
  | Struct p fs =>
      (fix go (o : N) (fs : list (string * ty)) (acc : bytes) : bytes :=
         match fs with
         | [] => acc
         | (_, t') :: r =>
             go (place p o t' + size t') r
               (patch acc (place p o t') (default_over t' (slice acc (place p o t') (size t'))))
         end) 0 fs g
  | _ => zeros (size t)
  end.

(** src/loader/elf/mod.rs:109, [PvhBootCapability]. *)
Definition cap_eq (a b : pvh_cap) : bool :=
  match a, b with
  | PvhEntryPresent x, PvhEntryPresent y => x =? y
  | PvhEntryNotPresent, PvhEntryNotPresent | PvhEntryIgnored, PvhEntryIgnored => true
  | _, _ => false
  end.
(** src/loader/mod.rs:146-162, [KernelLoaderResult]. *)
Definition result_eq (a b : load_result) : bool :=
  (kernel_load a =? kernel_load b) && (kernel_end a =? kernel_end b) &&
  match result_header a, result_header b with
  | Some x, Some y => derived_eq setup_header x y
  | None, None => true
  | _, _ => false
  end && cap_eq (pvh_boot_cap a) (pvh_boot_cap b).
(** src/loader/mod.rs:146-162, src/loader/elf/mod.rs:109-120. *)
Definition default_result : load_result := mkResult 0 0 None PvhEntryIgnored.

(** ** Errors

    [#\[derive(PartialEq)\]] on an enumeration compares the discriminants, numbered in declaration order, and then what the variants carry. *)
(** src/loader/elf/mod.rs:40-77. *)
Definition elf_tag (e : elf_error) : N :=
  match e with
  | Align => 0 | BigEndianElfOnLittle => 1 | InvalidElfMagicNumber => 2 | InvalidProgramHeaderSize => 3 | InvalidProgramHeaderOffset => 4 |
  InvalidProgramHeaderAddress => 5 | InvalidEntryAddress => 6 | ElfOverflow => 7 | ReadElfHeader => 8 | ReadKernelImage => 9 |
  ReadProgramHeader => 10 | SeekKernelStart => 11 | SeekElfStart => 12 | SeekProgramHeader => 13 | SeekNoteHeader => 14 | ReadNoteHeader => 15
  | InvalidPvhNote => 16
  end.
(** src/loader/bzimage/mod.rs:25-44. *)
Definition bz_tag (e : bz_error) : N :=
  match e with
  | InvalidBzImage => 0 | BzOverflow => 1 | ReadBzImageHeader => 2 | ReadBzImageCompressedKernel => 3 | SeekBzImageEnd => 4 |
  SeekBzImageHeader => 5 | SeekBzImageCompressedKernel => 6 | BzUnderflow => 7
  end.
(** src/loader/pe/mod.rs:26-51. *)
Definition pe_tag (e : pe_error) : N :=
  match e with
  | SeekImageEnd => 0 | SeekImageHeader => 1 | SeekDtbStart => 2 | SeekDtbEnd => 3 | DtbTooBig => 4 | PeReadKernelImage => 5 | ReadImageHeader
  => 6 | ReadDtbImage => 7 | InvalidImage => 8 | InvalidImageMagicNumber => 9 | InvalidBaseAddrAlignment => 10
  end.
(** src/loader/mod.rs:49-74 (the target-dependent variants all present). *)
Definition lerror_tag (e : lerror) : N :=
  match e with
  | LBz _ => 0 | LElf _ => 1 | LPe _ => 2 | InvalidCommandLine => 3 | CommandLineCopy => 4 | CommandLineOverflow => 5
  | InvalidKernelStartAddress => 6 | MemoryOverflow => 7
  end.
(** src/loader/mod.rs:49-74. *)
Definition lerror_eq (a b : lerror) : bool :=
  (lerror_tag a =? lerror_tag b) &&
  match a, b with
  | LBz x, LBz y => bz_tag x =? bz_tag y
  | LElf x, LElf y => elf_tag x =? elf_tag y
  | LPe x, LPe y => pe_tag x =? pe_tag y
  | _, _ => true
  end.
(** src/configurator/x86_64/linux.rs:25-31. *)
Definition linux_tag (e : linux_error) : N :=
  match e with
  | ZeroPagePastRamEnd => 0 | ZeroPageSetup => 1
  end.
(** src/configurator/x86_64/pvh.rs:28-46. *)
Definition pvh_tag (e : pvh_error) : N :=
  match e with
  | MemmapTableAddressMissing => 0 | MemmapTableMissing => 1 | MemmapTablePastRamEnd => 2 | MemmapTableSetup => 3 | StartInfoPastRamEnd => 4 |
  StartInfoSetup => 5 | ModulesAddressMissing => 6 | ModulesSetup => 7
  end.
(** src/configurator/fdt.rs:14-20. *)
Definition fdt_tag (e : fdt_error) : N :=
  match e with
  | FDTPastRamEnd => 0 | WriteFDTToMemory => 1
  end.
(** src/configurator/mod.rs:37-55 (the target-dependent variants all present). *)
Definition berror_tag (e : berror) : N :=
  match e with BLinux _ => 0 | BPvh _ => 1 | BFdt _ => 2 | MissingStartAddress => 3 | BOverflow => 4 | InvalidAddress => 5 end.
(** src/configurator/mod.rs:37-55. *)
Definition berror_eq (a b : berror) : bool :=
  (berror_tag a =? berror_tag b) &&
  match a, b with
  | BLinux x, BLinux y => linux_tag x =? linux_tag y
  | BPvh x, BPvh y => pvh_tag x =? pvh_tag y
  | BFdt x, BFdt y => fdt_tag x =? fdt_tag y
  | _, _ => true
  end.
(** [Result<T, E> == Result<T, E>]. *)
(** The results of src/loader/mod.rs:176-184 and src/configurator/mod.rs:124-126. *)
Definition answer_eq {E A} (eqE : E -> E -> bool) (eqA : A -> A -> bool) (x y : outcome E A) : bool :=
  match x, y with Ok a, Ok b => eqA a b | Err a, Err b => eqE a b | _, _ => false end.
