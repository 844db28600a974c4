(** * SpecGuest: what a Linux kernel takes from the boot information in guest memory.

    Specification only, not code of /repo.  Linux: arch/x86/kernel/setup.c and head64.c (command line, ramdisk),
    arch/x86/include/asm/bootparam_utils.h (sanitize_boot_params), arch/x86/kernel/e820.c (append_e820_table),
    arch/x86/platform/pvh/enlighten.c (xen_prepare_pvh, init_pvh_bootparams).  The offsets are those of the published
    layouts (SpecAbi.v). *)
From Verif Require Import Base Mem Layout Text SpecAbi.
Local Open Scope list_scope.

(** The text at [a]: up to the NUL, at most 2047 characters (COMMAND_LINE_SIZE is 2048). *)
Fixpoint text_at (m : gmem) (a : N) (room : nat) : text :=
  match room with
  | O => []
  | S k => if n8 (gm_byte m a) =? 0 then [] else n8 (gm_byte m a) :: text_at m (a + 1) k
  end.
Definition line_at (m : gmem) (a : N) : text := text_at m a 2047.

(** What Linux knows after early boot: memory map (address, size, type) as it was handed over, ramdisk (address, size), command line. *)
Record linux_view := mkView { memory_map : list (N * N * N); ramdisk : option (N * N); command_line : text }.

(** [append_e820_table]: a table with fewer than two entries, or with an entry that passes the end of the address space, is not used. *)
Definition passes_end (e : N * N * N) : bool := match e with (a, s, _) => negb (s =? 0) && (2 ^ 64 <? a + s) end.
Definition usable (t : list (N * N * N)) : option (list (N * N * N)) :=
  if (N.of_nat (length t) <? 2) || existsb passes_end t then None else Some t.
(** [get_ramdisk_image], [get_ramdisk_size], [reserve_initrd]. *)
Definition ramdisk_of (loader a s : N) : option (N * N) := if (loader =? 0) || (a =? 0) || (s =? 0) then None else Some (a, s).

(** ** Through the zero page at [z] *)
Fixpoint e820_from (m : gmem) (a : N) (n : nat) : list (N * N * N) :=
  match n with
  | O => []
  | S k => (guest_uint m a 8, guest_uint m (a + 8) 8, guest_uint m (a + 16) 4) :: e820_from m (a + 20) k
  end.
Definition view_zero_page (m : gmem) (z : N) : option linux_view :=
  let keep v := if guest_uint m (z + 0x1ef) 1 =? 0 then v else 0 in    (* sanitize_boot_params: only with a zero sentinel *)
  let long lo hi := guest_uint m (z + lo) 4 + 2 ^ 32 * keep (guest_uint m (z + hi) 4) in
  match usable (e820_from m (z + 0x2d0) (N.to_nat (guest_uint m (z + 0x1e8) 1))) with
  | None => None
  | Some map => Some (mkView map (ramdisk_of (guest_uint m (z + 0x210) 1) (long 0x218 0xc0) (long 0x21c 0xc4)) (line_at m (long 0x228 0xc8)))
  end.

(** ** Through the PVH start info at [z] ([None]: the kernel stops) *)
Fixpoint memmap_from (m : gmem) (a : N) (n : nat) : list (N * N * N) :=
  match n with
  | O => []
  | S k => (guest_uint m a 8, guest_uint m (a + 8) 8, guest_uint m (a + 16) 4) :: memmap_from m (a + 24) k
  end.
(** The legacy ISA range is added, reserved, if there is room. *)
Definition isa : N * N * N := (0xa0000, 0x60000, 2).
Definition view_start_info (m : gmem) (z : N) : option linux_view :=
  let n := guest_uint m (z + 48) 4 in
  if negb (guest_uint m z 4 =? 0x336ec578) || (guest_uint m (z + 4) 4 =? 0) || (n =? 0) then None
  else
    let n8 := n mod 2 ^ 8 in                     (* e820_entries is a byte *)
    let table := memmap_from m (guest_uint m (z + 40) 8) (N.to_nat n8) ++ (if n8 <? 127 then [isa] else []) in
    let rd := if guest_uint m (z + 12) 4 =? 0 then None
              else let a := guest_uint m (z + 16) 8 in     (* the first module; 32-bit fields *)
                   ramdisk_of 1 (guest_uint m a 8 mod 2 ^ 32) (guest_uint m (a + 8) 8 mod 2 ^ 32) in
    match usable table with
    | None => None
    | Some map => Some (mkView map rd (line_at m (guest_uint m (z + 24) 8 mod 2 ^ 32)))
    end.

(** ** What a VMM does with the crate's structures *)
(** [page.e820_table\[i\].addr = ...] and so on, from index [i]. *)
Fixpoint e820_assignments (i : N) (ram : list (N * N * N)) : list (list step * N) :=
  match ram with
  | [] => []
  | (a, s, t) :: r =>
      ([Fld "e820_table"; Idx i; Fld "addr"], a) :: ([Fld "e820_table"; Idx i; Fld "size"], s) :: ([Fld "e820_table"; Idx i; Fld "type"], t)
      :: e820_assignments (i + 1) r
  end.
Definition page_assignments (ram : list (N * N * N)) (line rd rd_size : N) : list (list step * N) :=
  [ ([Fld "hdr"; Fld "type_of_loader"], 0xff);
    ([Fld "hdr"; Fld "cmd_line_ptr"], line); ([Fld "ext_cmd_line_ptr"], line / 2 ^ 32);
    ([Fld "hdr"; Fld "ramdisk_image"], rd); ([Fld "ext_ramdisk_image"], rd / 2 ^ 32);
    ([Fld "hdr"; Fld "ramdisk_size"], rd_size); ([Fld "ext_ramdisk_size"], rd_size / 2 ^ 32);
    ([Fld "e820_entries"], N.of_nat (length ram)) ] ++ e820_assignments 0 ram.
(** A zero page: whatever [page] held, the header [h] of the image, then the assignments. *)
Definition linux_page (page h : bytes) (ram : list (N * N * N)) (line rd rd_size : N) : bytes :=
  assign_all boot_params (page_assignments ram line rd rd_size) (set_bytes boot_params [Fld "hdr"] h page).

Definition memmap_entry (e : N * N * N) : bytes :=
  match e with (a, s, t) =>
    assign_all hvm_memmap_table_entry [([Fld "addr"], a); ([Fld "size"], s); ([Fld "type_"], t)] (default_of hvm_memmap_table_entry) end.
Definition modlist_entry (e : N * N) : bytes :=
  match e with (a, s) => assign_all hvm_modlist_entry [([Fld "paddr"], a); ([Fld "size"], s)] (default_of hvm_modlist_entry) end.
Definition start_info_page (ram_at ram_count mods_at mods_count line : N) : bytes :=
  assign_all hvm_start_info
    [ ([Fld "magic"], 0x336ec578); ([Fld "version"], 1); ([Fld "nr_modules"], mods_count); ([Fld "modlist_paddr"], mods_at);
      ([Fld "cmdline_paddr"], line); ([Fld "memmap_paddr"], ram_at); ([Fld "memmap_entries"], ram_count) ] (default_of hvm_start_info).

(** A memory map Linux can use: 64-bit addresses and sizes inside the address space, 32-bit types. *)
Definition map_typed (ram : list (N * N * N)) : Prop :=
  forall a s t, In (a, s, t) ram -> a < 2 ^ 64 /\ s < 2 ^ 64 /\ t < 2 ^ 32 /\ a + s <= 2 ^ 64.
