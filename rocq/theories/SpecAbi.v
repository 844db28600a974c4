(** * SpecAbi: the binary layouts the guest expects, written down from the published documents.

    An entry is (field name, offset, size in bytes).  Sources: Linux
    Documentation/arch/x86/boot.rst ("The Real-Mode Kernel Header", offsets there are relative to
    the start of the file, i.e. 0x1f1 more than here) and zero-page.rst; Xen
    include/public/arch-x86/hvm/start_info.h (layout pictures); the ELF-64 object file format;
    Linux Documentation/arch/arm64/booting.rst and arch/riscv/boot-image-header.rst.
    Nothing here refers to the structs of the crate except by field name. *)
From Coq Require Import List NArith String.
Import ListNotations.
Open Scope string_scope.
Open Scope N_scope.

Definition abi := (N * list (string * N * N))%type.

(** Offsets relative to 0x1f1. *)
Definition abi_setup_header : abi := (123,
  [ ("setup_sects", 0x1f1 - 0x1f1, 1); ("root_flags", 0x1f2 - 0x1f1, 2); ("syssize", 0x1f4 - 0x1f1, 4);
    ("ram_size", 0x1f8 - 0x1f1, 2); ("vid_mode", 0x1fa - 0x1f1, 2); ("root_dev", 0x1fc - 0x1f1, 2);
    ("boot_flag", 0x1fe - 0x1f1, 2); ("jump", 0x200 - 0x1f1, 2); ("header", 0x202 - 0x1f1, 4);
    ("version", 0x206 - 0x1f1, 2); ("realmode_swtch", 0x208 - 0x1f1, 4); ("start_sys_seg", 0x20c - 0x1f1, 2);
    ("kernel_version", 0x20e - 0x1f1, 2); ("type_of_loader", 0x210 - 0x1f1, 1); ("loadflags", 0x211 - 0x1f1, 1);
    ("setup_move_size", 0x212 - 0x1f1, 2); ("code32_start", 0x214 - 0x1f1, 4); ("ramdisk_image", 0x218 - 0x1f1, 4);
    ("ramdisk_size", 0x21c - 0x1f1, 4); ("bootsect_kludge", 0x220 - 0x1f1, 4); ("heap_end_ptr", 0x224 - 0x1f1, 2);
    ("ext_loader_ver", 0x226 - 0x1f1, 1); ("ext_loader_type", 0x227 - 0x1f1, 1); ("cmd_line_ptr", 0x228 - 0x1f1, 4);
    ("initrd_addr_max", 0x22c - 0x1f1, 4); ("kernel_alignment", 0x230 - 0x1f1, 4); ("relocatable_kernel", 0x234 - 0x1f1, 1);
    ("min_alignment", 0x235 - 0x1f1, 1); ("xloadflags", 0x236 - 0x1f1, 2); ("cmdline_size", 0x238 - 0x1f1, 4);
    ("hardware_subarch", 0x23c - 0x1f1, 4); ("hardware_subarch_data", 0x240 - 0x1f1, 8); ("payload_offset", 0x248 - 0x1f1, 4);
    ("payload_length", 0x24c - 0x1f1, 4); ("setup_data", 0x250 - 0x1f1, 8); ("pref_address", 0x258 - 0x1f1, 8);
    ("init_size", 0x260 - 0x1f1, 4); ("handover_offset", 0x264 - 0x1f1, 4); ("kernel_info_offset", 0x268 - 0x1f1, 4) ]).

(** The zero page. *)
Definition abi_boot_params : abi := (0x1000,
  [ ("screen_info", 0x000, 0x40); ("apm_bios_info", 0x040, 0x14); ("tboot_addr", 0x058, 8); ("ist_info", 0x060, 0x10);
    ("acpi_rsdp_addr", 0x070, 8); ("hd0_info", 0x080, 0x10); ("hd1_info", 0x090, 0x10); ("sys_desc_table", 0x0a0, 0x10);
    ("olpc_ofw_header", 0x0b0, 0x10); ("ext_ramdisk_image", 0x0c0, 4); ("ext_ramdisk_size", 0x0c4, 4);
    ("ext_cmd_line_ptr", 0x0c8, 4); ("cc_blob_address", 0x13c, 4); ("edid_info", 0x140, 0x80); ("efi_info", 0x1c0, 0x20);
    ("alt_mem_k", 0x1e0, 4); ("scratch", 0x1e4, 4); ("e820_entries", 0x1e8, 1); ("eddbuf_entries", 0x1e9, 1);
    ("edd_mbr_sig_buf_entries", 0x1ea, 1); ("kbd_status", 0x1eb, 1); ("secure_boot", 0x1ec, 1); ("sentinel", 0x1ef, 1);
    ("hdr", 0x1f1, 123); ("edd_mbr_sig_buffer", 0x290, 0x40); ("e820_table", 0x2d0, 128 * 20); ("eddbuf", 0xd00, 6 * 82) ]).

Definition abi_e820_entry : abi := (20, [ ("addr", 0, 8); ("size", 8, 8); ("type", 16, 4) ]).

Definition abi_start_info : abi := (56,
  [ ("magic", 0, 4); ("version", 4, 4); ("flags", 8, 4); ("nr_modules", 12, 4); ("modlist_paddr", 16, 8);
    ("cmdline_paddr", 24, 8); ("rsdp_paddr", 32, 8); ("memmap_paddr", 40, 8); ("memmap_entries", 48, 4); ("reserved", 52, 4) ]).
Definition abi_modlist_entry : abi := (32, [ ("paddr", 0, 8); ("size", 8, 8); ("cmdline_paddr", 16, 8); ("reserved", 24, 8) ]).
Definition abi_memmap_entry : abi := (24, [ ("addr", 0, 8); ("size", 8, 8); ("type_", 16, 4); ("reserved", 20, 4) ]).

Definition abi_elf64_ehdr : abi := (64,
  [ ("e_ident", 0, 16); ("e_type", 0x10, 2); ("e_machine", 0x12, 2); ("e_version", 0x14, 4); ("e_entry", 0x18, 8);
    ("e_phoff", 0x20, 8); ("e_shoff", 0x28, 8); ("e_flags", 0x30, 4); ("e_ehsize", 0x34, 2); ("e_phentsize", 0x36, 2);
    ("e_phnum", 0x38, 2); ("e_shentsize", 0x3a, 2); ("e_shnum", 0x3c, 2); ("e_shstrndx", 0x3e, 2) ]).
Definition abi_elf64_phdr : abi := (56,
  [ ("p_type", 0, 4); ("p_flags", 4, 4); ("p_offset", 8, 8); ("p_vaddr", 0x10, 8); ("p_paddr", 0x18, 8);
    ("p_filesz", 0x20, 8); ("p_memsz", 0x28, 8); ("p_align", 0x30, 8) ]).
Definition abi_elf_nhdr : abi := (12, [ ("n_namesz", 0, 4); ("n_descsz", 4, 4); ("n_type", 8, 4) ]).

(** Other ELF structures the crate exports. *)
Definition abi_elf64_shdr : abi := (64,
  [ ("sh_name", 0, 4); ("sh_type", 4, 4); ("sh_flags", 8, 8); ("sh_addr", 0x10, 8); ("sh_offset", 0x18, 8);
    ("sh_size", 0x20, 8); ("sh_link", 0x28, 4); ("sh_info", 0x2c, 4); ("sh_addralign", 0x30, 8); ("sh_entsize", 0x38, 8) ]).
Definition abi_elf64_sym : abi := (24,
  [ ("st_name", 0, 4); ("st_info", 4, 1); ("st_other", 5, 1); ("st_shndx", 6, 2); ("st_value", 8, 8); ("st_size", 16, 8) ]).
Definition abi_elf64_rel : abi := (16, [ ("r_offset", 0, 8); ("r_info", 8, 8) ]).
Definition abi_elf64_rela : abi := (24, [ ("r_offset", 0, 8); ("r_info", 8, 8); ("r_addend", 16, 8) ]).
Definition abi_elf64_dyn : abi := (16, [ ("d_tag", 0, 8); ("d_un", 8, 8) ]).
Definition abi_elf32_ehdr : abi := (52,
  [ ("e_ident", 0, 16); ("e_type", 0x10, 2); ("e_machine", 0x12, 2); ("e_version", 0x14, 4); ("e_entry", 0x18, 4);
    ("e_phoff", 0x1c, 4); ("e_shoff", 0x20, 4); ("e_flags", 0x24, 4); ("e_ehsize", 0x28, 2); ("e_phentsize", 0x2a, 2);
    ("e_phnum", 0x2c, 2); ("e_shentsize", 0x2e, 2); ("e_shnum", 0x30, 2); ("e_shstrndx", 0x32, 2) ]).
Definition abi_elf32_phdr : abi := (32,
  [ ("p_type", 0, 4); ("p_offset", 4, 4); ("p_vaddr", 8, 4); ("p_paddr", 0xc, 4); ("p_filesz", 0x10, 4);
    ("p_memsz", 0x14, 4); ("p_flags", 0x18, 4); ("p_align", 0x1c, 4) ]).
Definition abi_elf32_shdr : abi := (40,
  [ ("sh_name", 0, 4); ("sh_type", 4, 4); ("sh_flags", 8, 4); ("sh_addr", 0xc, 4); ("sh_offset", 0x10, 4);
    ("sh_size", 0x14, 4); ("sh_link", 0x18, 4); ("sh_info", 0x1c, 4); ("sh_addralign", 0x20, 4); ("sh_entsize", 0x24, 4) ]).
Definition abi_elf32_sym : abi := (16,
  [ ("st_name", 0, 4); ("st_value", 4, 4); ("st_size", 8, 4); ("st_info", 12, 1); ("st_other", 13, 1); ("st_shndx", 14, 2) ]).

Definition abi_arm64_image : abi := (64,
  [ ("code0", 0, 4); ("code1", 4, 4); ("text_offset", 8, 8); ("image_size", 16, 8); ("flags", 24, 8);
    ("res2", 32, 8); ("res3", 40, 8); ("res4", 48, 8); ("magic", 56, 4); ("res5", 60, 4) ]).
Definition abi_riscv_image : abi := (64,
  [ ("code0", 0, 4); ("code1", 4, 4); ("text_offset", 8, 8); ("image_size", 16, 8); ("flags", 24, 8);
    ("version", 32, 4); ("res1", 36, 4); ("res2", 40, 8); ("magic", 48, 8); ("magic2", 56, 4); ("res3", 60, 4) ]).

(** The remaining parts of the zero page: Linux include/uapi/linux/screen_info.h, apm_bios.h,
    arch/x86/include/uapi/asm/ist.h, include/uapi/linux/edd.h, include/uapi/video/edid.h,
    arch/x86/include/uapi/asm/bootparam.h. *)
Definition abi_screen_info : abi := (0x40,
  [ ("orig_x", 0x00, 1); ("orig_y", 0x01, 1); ("ext_mem_k", 0x02, 2); ("orig_video_page", 0x04, 2);
    ("orig_video_mode", 0x06, 1); ("orig_video_cols", 0x07, 1); ("flags", 0x08, 1); ("unused2", 0x09, 1);
    ("orig_video_ega_bx", 0x0a, 2); ("unused3", 0x0c, 2); ("orig_video_lines", 0x0e, 1); ("orig_video_isVGA", 0x0f, 1);
    ("orig_video_points", 0x10, 2); ("lfb_width", 0x12, 2); ("lfb_height", 0x14, 2); ("lfb_depth", 0x16, 2);
    ("lfb_base", 0x18, 4); ("lfb_size", 0x1c, 4); ("cl_magic", 0x20, 2); ("cl_offset", 0x22, 2);
    ("lfb_linelength", 0x24, 2); ("red_size", 0x26, 1); ("red_pos", 0x27, 1); ("green_size", 0x28, 1);
    ("green_pos", 0x29, 1); ("blue_size", 0x2a, 1); ("blue_pos", 0x2b, 1); ("rsvd_size", 0x2c, 1);
    ("rsvd_pos", 0x2d, 1); ("vesapm_seg", 0x2e, 2); ("vesapm_off", 0x30, 2); ("pages", 0x32, 2);
    ("vesa_attributes", 0x34, 2); ("capabilities", 0x36, 4); ("ext_lfb_base", 0x3a, 4); ("_reserved", 0x3e, 2) ]).
Definition abi_apm_bios_info : abi := (20,
  [ ("version", 0, 2); ("cseg", 2, 2); ("offset", 4, 4); ("cseg_16", 8, 2); ("dseg", 10, 2); ("flags", 12, 2);
    ("cseg_len", 14, 2); ("cseg_16_len", 16, 2); ("dseg_len", 18, 2) ]).
Definition abi_ist_info : abi := (16, [ ("signature", 0, 4); ("command", 4, 4); ("event", 8, 4); ("perf_level", 12, 4) ]).
Definition abi_edid_info : abi := (128, [ ("dummy", 0, 128) ]).
Definition abi_sys_desc_table : abi := (16, [ ("length", 0, 2); ("table", 2, 14) ]).
Definition abi_olpc_ofw_header : abi := (16,
  [ ("ofw_magic", 0, 4); ("ofw_version", 4, 4); ("cif_handler", 8, 4); ("irq_desc_table", 12, 4) ]).
Definition abi_efi_info : abi := (32,
  [ ("efi_loader_signature", 0, 4); ("efi_systab", 4, 4); ("efi_memdesc_size", 8, 4); ("efi_memdesc_version", 12, 4);
    ("efi_memmap", 16, 4); ("efi_memmap_size", 20, 4); ("efi_systab_hi", 24, 4); ("efi_memmap_hi", 28, 4) ]).
(** BIOS Enhanced Disk Drive Services: the device parameters, and Linux's record around them. *)
Definition abi_edd_device_params : abi := (74,
  [ ("length", 0, 2); ("info_flags", 2, 2); ("num_default_cylinders", 4, 4); ("num_default_heads", 8, 4);
    ("sectors_per_track", 12, 4); ("number_of_sectors", 16, 8); ("bytes_per_sector", 24, 2); ("dpte_ptr", 26, 4);
    ("key", 30, 2); ("device_path_info_length", 32, 1); ("reserved2", 33, 1); ("reserved3", 34, 2);
    ("host_bus_type", 36, 4); ("interface_type", 40, 8); ("interface_path", 48, 8); ("device_path", 56, 16);
    ("reserved4", 72, 1); ("checksum", 73, 1) ]).
Definition abi_edd_info : abi := (82,
  [ ("device", 0, 1); ("version", 1, 1); ("interface_support", 2, 2); ("legacy_max_cylinder", 4, 2);
    ("legacy_max_head", 6, 1); ("legacy_sectors_per_track", 7, 1); ("params", 8, 74) ]).

(** Remaining ELF structures: relocations and dynamic entries of ELF-32, symbol versions. *)
Definition abi_elf32_rel : abi := (8, [ ("r_offset", 0, 4); ("r_info", 4, 4) ]).
Definition abi_elf32_rela : abi := (12, [ ("r_offset", 0, 4); ("r_info", 4, 4); ("r_addend", 8, 4) ]).
Definition abi_elf32_dyn : abi := (8, [ ("d_tag", 0, 4); ("d_un", 4, 4) ]).
Definition abi_elf_verdef : abi := (20,
  [ ("vd_version", 0, 2); ("vd_flags", 2, 2); ("vd_ndx", 4, 2); ("vd_cnt", 6, 2); ("vd_hash", 8, 4);
    ("vd_aux", 12, 4); ("vd_next", 16, 4) ]).
Definition abi_elf_verdaux : abi := (8, [ ("vda_name", 0, 4); ("vda_next", 4, 4) ]).

(** The structures inside the zero page and where they start. *)
Definition zero_page_parts : list (string * N * abi) :=
  [ ("screen_info", 0x000, abi_screen_info); ("apm_bios_info", 0x040, abi_apm_bios_info); ("ist_info", 0x060, abi_ist_info);
    ("sys_desc_table", 0x0a0, abi_sys_desc_table); ("olpc_ofw_header", 0x0b0, abi_olpc_ofw_header);
    ("edid_info", 0x140, abi_edid_info); ("efi_info", 0x1c0, abi_efi_info); ("hdr", 0x1f1, abi_setup_header) ].

(** ** Where the guest finds a field: path expression, offset from the start of the structure, size. *)
From Verif Require Import Base Mem Layout.

(** [name] is listed in [t] at [off], [sz] bytes long. *)
Definition listed (t : abi) (name : string) (off sz : N) : Prop := In (name, off, sz) (snd t).

(** The zero page: its own fields, those of its parts (the setup header at 0x1f1 among them), those of
    the e820 entries at 0x2d0, 20 bytes each, and those of the EDD records at 0xd00, 82 bytes each, with
    the device parameters 8 bytes into a record. *)
Inductive zero_page_place : list step -> N -> N -> Prop :=
| zp_field n o s : listed abi_boot_params n o s -> zero_page_place [Fld n] o s
| zp_part part start t n o s : In (part, start, t) zero_page_parts -> listed t n o s ->
    zero_page_place [Fld part; Fld n] (start + o) s
| zp_e820 i n o s : i < 128 -> listed abi_e820_entry n o s ->
    zero_page_place [Fld "e820_table"; Idx i; Fld n] (0x2d0 + 20 * i + o) s
| zp_mbr i : i < 16 -> zero_page_place [Fld "edd_mbr_sig_buffer"; Idx i] (0x290 + 4 * i) 4
| zp_edd i n o s : i < 6 -> listed abi_edd_info n o s ->
    zero_page_place [Fld "eddbuf"; Idx i; Fld n] (0xd00 + 82 * i + o) s
| zp_edd_params i n o s : i < 6 -> listed abi_edd_device_params n o s ->
    zero_page_place [Fld "eddbuf"; Idx i; Fld "params"; Fld n] (0xd00 + 82 * i + 8 + o) s.

(** The setup header's fields, in particular. *)
Lemma zp_hdr n o s : listed abi_setup_header n o s -> zero_page_place [Fld "hdr"; Fld n] (0x1f1 + o) s.
Proof. apply zp_part. cbn. tauto. Qed.

(** The unsigned little-endian integer the guest reads from [n] bytes at [a]. *)
Fixpoint guest_uint (m : gmem) (a : N) (n : nat) : N :=
  match n with O => 0 | S k => n8 (gm_byte m a) + 256 * guest_uint m (a + 1) k end.
(** The unsigned little-endian integer in [n] bytes of a byte string from [o]. *)
Fixpoint uint_at (bs : bytes) (o : N) (n : nat) : N :=
  match n with
  | O => 0
  | S k => match nth_error bs (N.to_nat o) with Some b => n8 b | None => 0 end + 256 * uint_at bs (o + 1) k
  end.

(** Paths that part ways: at some point they name different fields, or different array elements. *)
Inductive diverge : list step -> list step -> Prop :=
| div_fld n1 n2 p q : n1 <> n2 -> diverge (Fld n1 :: p) (Fld n2 :: q)
| div_idx i j p q : i <> j -> diverge (Idx i :: p) (Idx j :: q)
| div_step s p q : diverge p q -> diverge (s :: p) (s :: q).

(** Field assignments one after the other, and the value a field was last given. *)
Definition assign_all (t : ty) (asg : list (list step * N)) (bs : bytes) : bytes :=
  fold_left (fun b a => set t (fst a) (snd a) b) asg bs.
Definition step_eq_dec (a b : step) : {a = b} + {a <> b}.
Proof. decide equality; [apply String.string_dec|apply N.eq_dec]. Defined.
Fixpoint last_value (path : list step) (asg : list (list step * N)) : option N :=
  match asg with
  | [] => None
  | (q, v) :: r =>
      match last_value path r with
      | Some w => Some w
      | None => if list_eq_dec step_eq_dec q path then Some v else None
      end
  end.
(** No assignment touches part of the field only, or more than the field. *)
Definition whole_fields (path : list step) (asg : list (list step * N)) : Prop :=
  forall q v, In (q, v) asg -> q = path \/ diverge q path.
