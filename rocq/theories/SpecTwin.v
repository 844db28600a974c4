(** * SpecTwin: the bytes of an image that a loader may look at. *)
From Verif Require Import Base Io Mem SpecMem SpecFile Loader SpecElf SpecBz.

(** [g] has the byte [f] has at every position of [R] (inside [f]). *)
Definition same_bytes (f g : bytes) (R : N -> Prop) : Prop :=
  forall x, R x -> x < lenN f -> nth_error g (N.to_nat x) = nth_error f (N.to_nat x).

(** ELF: the header, the program header table, the file bytes of loadable segments and, if no
    kernel offset is given, of note segments with 19 bytes more (a note that starts in the segment
    may reach over its end). *)
Inductive elf_looks (f : bytes) (off : option N) (x : N) : Prop :=
| look_header : x < 64 -> elf_looks f off x
| look_table : phoff_of f <= x < phoff_of f + 56 * phnum_of f -> elf_looks f off x
| look_segment p : In p (phdrs_of f) -> is_load p = true -> ph_offset p <= x < ph_offset p + ph_filesz p -> elf_looks f off x
| look_note p : off = None -> In p (phdrs_of f) -> is_note p = true ->
    ph_offset p <= x < ph_offset p + ph_filesz p + 19 -> elf_looks f off x.
(** bzImage: the setup header and the protected mode kernel; not the boot sector's nor the setup
    code. *)
Definition bz_looks (f : bytes) (x : N) : Prop := 0x1f1 <= x < 0x1f1 + 123 \/ bz_setup_size f <= x.

(** The same source - position, faults, short reads - with other contents. *)
Definition with_data (g : bytes) (r : reader) : reader :=
  mkReader g (rd_pos r) (rd_maxpos r) (rd_chunk r) (rd_fault r) (rd_ops r).
