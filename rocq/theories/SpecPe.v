(** * SpecPe: what an arm64 / riscv64 Image file says, by absolute file offsets
    (Linux Documentation/arch/arm64/booting.rst and arch/riscv/boot-image-header.rst). *)
From Verif Require Import Base Io Mem SpecMem SpecFile Loader Pe.

Definition pe_magic_good (a : arch) (f : bytes) : Prop :=
  u32at f 0x38 = match a with Aarch64 => 0x644d5241 | Riscv64 => 0x05435352 end.

(** Offset of the image from the (2 MiB aligned) base. *)
Definition pe_text_offset (a : arch) (f : bytes) : N :=
  match a with
  | Aarch64 => if u64at f 16 =? 0 then 0x80000 else u64at f 8
  | Riscv64 => u64at f 8
  end.

Definition pe_base (off : option N) : N := match off with Some k => k | None => 0 end.
Definition pe_load_addr (a : arch) (f : bytes) (off : option N) : N := pe_base off + pe_text_offset a f.

(** What is wrong with an image or its offset, in the order of the checks. *)
Inductive pe_problem (a : arch) (f : bytes) (off : option N) : pe_error -> Prop :=
| pp_short : lenN f < 64 -> pe_problem a f off ReadImageHeader
| pp_magic : 64 <= lenN f -> ~ pe_magic_good a f -> pe_problem a f off InvalidImageMagicNumber
| pp_align : 64 <= lenN f -> pe_magic_good a f -> pe_base off mod (2 * 1024 * 1024) <> 0 ->
    pe_problem a f off InvalidBaseAddrAlignment
| pp_over : 64 <= lenN f -> pe_magic_good a f -> pe_base off mod (2 * 1024 * 1024) = 0 ->
    2 ^ 64 <= pe_load_addr a f off -> pe_problem a f off InvalidImage.

Definition pe_good (a : arch) (f : bytes) (off : option N) : Prop :=
  64 <= lenN f /\ pe_magic_good a f /\ pe_base off mod (2 * 1024 * 1024) = 0 /\ pe_load_addr a f off < 2 ^ 64.
