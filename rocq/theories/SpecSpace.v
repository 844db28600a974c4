(** * SpecSpace: the memory a kernel takes when it is started, before it has looked at what the VMM prepared.

    ELF specification, "Program Header": a loadable segment takes p_memsz bytes; those after the file's are the kernel's to clear.
    Linux Documentation/arch/x86/boot.rst (pref_address, init_size, from protocol 2.10), arch/arm64/booting.rst and
    arch/riscv/boot-image-header.rst (image_size).  Written from the bytes of the image file. *)
From Verif Require Import Base Io Mem SpecMem SpecFile Text Cmdline Loader SpecElf SpecBz Pe SpecPe BootParams SpecVmm.

(** boot.rst, init_size: where a kernel loaded at [a] runs. *)
Definition bz_alignment (f : bytes) : N := u32at f 0x230.
Definition bz_relocatable (f : bytes) : bool := negb (byte_at f 0x234 =? 0).
Definition bz_pref_address (f : bytes) : N := u64at f 0x258.
Definition bz_init_size (f : bytes) : N := u32at f 0x260.
(** [l] is the least multiple of [n] that is not below [a] (n = 0: no alignment asked for). *)
Definition aligned_start (n a l : N) : Prop := if n =? 0 then l = a else (exists k, l = k * n) /\ a <= l /\ l < a + n.
Definition runs_at (f : bytes) (a l : N) : Prop :=
  if bz_relocatable f then aligned_start (bz_alignment f) (N.max a (bz_pref_address f)) l else l = bz_pref_address f.

Definition pe_image_size (f : bytes) : N := u64at f 16.

(** The kernel loaded by [t] with result [res] takes the byte at [x].  Where the file does not say how much it needs (arm64 Images
    with image_size 0, bzImages before protocol 2.10), everything from the load address on counts as taken. *)
Definition takes (t : task) (res : load_result) (x : N) : Prop :=
  match t with
  | LoadElf off _ im => exists p, In p (phdrs_of (rd_data im)) /\ ph_type p = 1 /\ in_range (base_of off + ph_paddr p) (ph_memsz p) x
  | LoadBz _ _ im =>
      if 0x20a <=? bz_version (rd_data im) then exists l, runs_at (rd_data im) (kernel_load res) l /\ in_range l (bz_init_size (rd_data im)) x
      else kernel_load res <= x
  | LoadPe a off _ im =>
      if pe_image_size (rd_data im) =? 0 then kernel_load res <= x else in_range (kernel_load res) (pe_image_size (rd_data im)) x
  | _ => False
  end.

(** The kernel has been started: it has done as it likes with the memory it was loaded into and the memory it takes. *)
Definition started (t : task) (res : load_result) (m m' : gmem) : Prop := same_outside m m' (fun x => touches t x \/ takes t res x).

(** Nothing the kernel takes lies at or above the reported end. *)
Definition end_says_it_all (t : task) (res : load_result) : Prop := forall x, takes t res x -> x < kernel_end res.
