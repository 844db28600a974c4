(** * Loader: common parts of the kernel loaders, src/loader/mod.rs. *)
From Verif Require Import Base Io Mem Layout Text Cmdline.

(** src/loader/elf/mod.rs:42-77. *)
Inductive elf_error :=
| Align | BigEndianElfOnLittle | InvalidElfMagicNumber | InvalidProgramHeaderSize
| InvalidProgramHeaderOffset | InvalidProgramHeaderAddress | InvalidEntryAddress | ElfOverflow
| ReadElfHeader | ReadKernelImage | ReadProgramHeader | SeekKernelStart | SeekElfStart
| SeekProgramHeader | SeekNoteHeader | ReadNoteHeader | InvalidPvhNote.

(** src/loader/bzimage/mod.rs:25-44. *)
Inductive bz_error :=
| InvalidBzImage | BzOverflow | ReadBzImageHeader | ReadBzImageCompressedKernel | SeekBzImageEnd
| SeekBzImageHeader | SeekBzImageCompressedKernel | BzUnderflow.

(** src/loader/pe/mod.rs:26-51. *)
Inductive pe_error :=
| SeekImageEnd | SeekImageHeader | SeekDtbStart | SeekDtbEnd | DtbTooBig | PeReadKernelImage
| ReadImageHeader | ReadDtbImage | InvalidImage | InvalidImageMagicNumber
| InvalidBaseAddrAlignment.

(** src/loader/mod.rs:51-74 (the target-dependent variants all present), with the
    conversions of 127-146 ([From]) left implicit in the constructors. *)
Inductive lerror :=
| LElf (e : elf_error) | LBz (e : bz_error) | LPe (e : pe_error)
| InvalidCommandLine | CommandLineCopy | CommandLineOverflow
| InvalidKernelStartAddress | MemoryOverflow.

(** src/loader/elf/mod.rs:112-120; the default is [PvhEntryIgnored]. *)
Inductive pvh_cap := PvhEntryPresent (a : N) | PvhEntryNotPresent | PvhEntryIgnored.

(** src/loader/mod.rs:146-162.  A [setup_header] is its 123 bytes. *)
Record load_result := mkResult {
  kernel_load : N;
  kernel_end : N;
  result_header : option bytes;
  pvh_boot_cap : pvh_cap
}.

(** A loader step: works on the image source and guest memory; both keep whatever state the
    step left them in, also when it fails. *)
(** How the bodies of src/loader/elf/mod.rs:203-300, 312-416, src/loader/bzimage/mod.rs:100-185 and src/loader/pe/mod.rs:136-236 are put together (statements with [?]). *)
Definition L (A : Type) : Type := reader -> gmem -> reader * gmem * outcome lerror A.

(** How the bodies of src/loader/elf/mod.rs:203-300, 312-416, src/loader/bzimage/mod.rs:100-185 and src/loader/pe/mod.rs:136-236 are put together (statements with [?]). *)
Definition lret {A} (a : A) : L A := fun r m => (r, m, Ok a).
(** How the bodies of src/loader/elf/mod.rs:203-300, 312-416, src/loader/bzimage/mod.rs:100-185 and src/loader/pe/mod.rs:136-236 are put together (statements with [?]). *)
Definition lfail {A} (e : lerror) : L A := fun r m => (r, m, Err e).
(** How the bodies of src/loader/elf/mod.rs:203-300, 312-416, src/loader/bzimage/mod.rs:100-185 and src/loader/pe/mod.rs:136-236 are put together (statements with [?]). *)
Definition lbind {A B} (x : L A) (f : A -> L B) : L B := fun r m =>
  match x r m with
  | (r', m', Ok a) => f a r' m'
  | (r', m', Err e) => (r', m', Err e)
  | (r', m', Panic p) => (r', m', Panic p)
  end.
(** A computation that touches neither. *)
(** How the bodies of src/loader/elf/mod.rs:203-300, 312-416, src/loader/bzimage/mod.rs:100-185 and src/loader/pe/mod.rs:136-236 are put together (statements with [?]). *)
Definition lpure {A} (x : outcome lerror A) : L A := fun r m => (r, m, x).
(** An operation on the source, [.map_err(|_| e)?]. *)
(** How the bodies of src/loader/elf/mod.rs:203-300, 312-416, src/loader/bzimage/mod.rs:100-185 and src/loader/pe/mod.rs:136-236 are put together (statements with [?]). *)
Definition lio {A} (op : reader -> reader * option A) (e : lerror) : L A := fun r m =>
  match op r with
  | (r', Some a) => (r', m, Ok a)
  | (r', None) => (r', m, Err e)
  end.
(** [guest_mem.read_exact_volatile_from(a, image, n).map_err(|_| e)?]. *)
(** How the bodies of src/loader/elf/mod.rs:203-300, 312-416, src/loader/bzimage/mod.rs:100-185 and src/loader/pe/mod.rs:136-236 are put together (statements with [?]). *)
Definition lcopy (be : backend) (a n : N) (e : lerror) : L unit := fun r m =>
  match read_exact_volatile_from be r m a n with
  | (r', m', Ok _) => (r', m', Ok tt)
  | (r', m', Err _) => (r', m', Err e)
  | (r', m', Panic p) => (r', m', Panic p)
  end.

Declare Scope loader_scope.
Delimit Scope loader_scope with loader.
Notation "x <- a ;; b" := (lbind a (fun x => b))
  (at level 100, a at next level, right associativity) : loader_scope.
Notation "a ;;; b" := (lbind a (fun _ => b)) (at level 100, right associativity) : loader_scope.

(** src/loader/mod.rs:222-250. *)
Definition load_cmdline (bld : build) (be : backend) (m : gmem) (addr : N) (c : cmdline)
  : gmem * outcome lerror unit :=
  match as_cstring c with
  | Ok s =>
      let cmdline_bytes := bytes_with_nul s in
      match usub (E := lerror) bld (lenN cmdline_bytes) 1 with
      | Ok d =>
          match checked_add addr d with
          | None => (m, Err CommandLineOverflow)
          | Some e =>
              if last_addr m <? e then (m, Err CommandLineOverflow)
              else match write_slice be m cmdline_bytes addr with
                   | (m', Ok _) => (m', Ok tt)
                   | (m', Err _) => (m', Err CommandLineCopy)
                   | (m', Panic p) => (m', Panic p)
                   end
          end
      | Err e => (m, Err e)
      | Panic p => (m, Panic p)
      end
  | Err _ => (m, Err InvalidCommandLine)
  | Panic p => (m, Panic p)
  end.
