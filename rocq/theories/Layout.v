(** * Layout: repr(C) and repr(C, packed) structs as byte layouts.

    Models [core::mem::size_of], field offsets and field access of the structs in
    src/loader_gen and src/loader/pe/mod.rs.  Offsets are *computed* from the field
    declarations by the repr(C) rules; nothing is taken from the comments in the
    source.  A value of a struct type is its bytes ([ByteValued::as_slice]). *)
From Verif Require Import Base.
From Coq Require Export String.
Export List.
#[global] Open Scope string_scope.
#[global] Open Scope N_scope.
#[global] Open Scope list_scope.

(** Field types.  Signed integers have the same layout as unsigned ones. *)
(** Rust layout rules of [repr(C)], needed for the structures of src/loader_gen/x86_64/bootparam.rs:107-387, start_info.rs:15-56, elf.rs:519-786 and src/loader/pe/mod.rs:77-122. *)
Inductive ty :=
| U8 | U16 | U32 | U64
| Arr (n : N) (t : ty)
| Struct (packed : bool) (fs : list (string * ty)).

(** [n] rounded up to a multiple of [a]. *)
(** Rust layout rules of [repr(C)], needed for the structures of src/loader_gen/x86_64/bootparam.rs:107-387, start_info.rs:15-56, elf.rs:519-786 and src/loader/pe/mod.rs:77-122. *)
Definition round_up (n a : N) : N := (n + a - 1) / a * a.

(** [align_of] on x86_64 / aarch64 / riscv64 (u64 aligned to 8). *)
(** Rust layout rules of [repr(C)], needed for the structures of src/loader_gen/x86_64/bootparam.rs:107-387, start_info.rs:15-56, elf.rs:519-786 and src/loader/pe/mod.rs:77-122. *)
Fixpoint align (t : ty) : N :=
  match t with
  | U8 => 1 | U16 => 2 | U32 => 4 | U64 => 8
  | Arr _ t => align t
  | Struct true _ => 1
  | Struct false fs =>
      (fix go (fs : list (string * ty)) : N :=
         match fs with
         | [] => 1
         | (_, t) :: r => N.max (align t) (go r)
         end) fs
  end.

(** Offset at which a field of type [t] is placed when the previous one ended at [o]. *)
(** Rust layout rules of [repr(C)], needed for the structures of src/loader_gen/x86_64/bootparam.rs:107-387, start_info.rs:15-56, elf.rs:519-786 and src/loader/pe/mod.rs:77-122. *)
Definition place (packed : bool) (o : N) (t : ty) : N :=
  if packed then o else round_up o (align t).

(** [size_of]. *)
(** Rust layout rules of [repr(C)], needed for the structures of src/loader_gen/x86_64/bootparam.rs:107-387, start_info.rs:15-56, elf.rs:519-786 and src/loader/pe/mod.rs:77-122. *)
Fixpoint size (t : ty) : N :=
  match t with
  | U8 => 1 | U16 => 2 | U32 => 4 | U64 => 8
  | Arr n t => n * size t
  | Struct p fs =>
      let e := (fix go (o : N) (fs : list (string * ty)) : N :=
         match fs with
         | [] => o
         | (_, t) :: r => go (place p o t + size t) r
         end) 0 fs in
      if p then e else round_up e (align (Struct p fs))
  end.

(** [offset_of!]: offset and type of a named field, scanning from offset [o]. *)
(** Rust layout rules of [repr(C)], needed for the structures of src/loader_gen/x86_64/bootparam.rs:107-387, start_info.rs:15-56, elf.rs:519-786 and src/loader/pe/mod.rs:77-122. *)
Fixpoint find_field (p : bool) (o : N) (fs : list (string * ty)) (name : string) : option (N * ty) :=
  match fs with
  | [] => None
  | (n, t) :: r =>
      if String.eqb n name then Some (place p o t, t)
      else find_field p (place p o t + size t) r name
  end.

(** A place expression such as [.hdr.code32_start] or [.e820_table\[3\].addr]. *)
(** Field accesses such as those at src/loader/elf/mod.rs:142-160, 222-291, src/loader/bzimage/mod.rs:127-175, src/loader/pe/mod.rs:161-185. *)
Inductive step := Fld (name : string) | Idx (i : N).

(** Field accesses such as those at src/loader/elf/mod.rs:142-160, 222-291, src/loader/bzimage/mod.rs:127-175, src/loader/pe/mod.rs:161-185. *)
Fixpoint locate (t : ty) (path : list step) : option (N * ty) :=
  match path with
  | [] => Some (0, t)
  | Fld name :: r =>
      match t with
      | Struct p fs =>
          match find_field p 0 fs name with
          | Some (o, t') =>
              match locate t' r with
              | Some (o', t'') => Some (o + o', t'')
              | None => None
              end
          | None => None
          end
      | _ => None
      end
  | Idx i :: r =>
      match t with
      | Arr n t' =>
          if i <? n then
            match locate t' r with
            | Some (o', t'') => Some (i * size t' + o', t'')
            | None => None
            end
          else None
      | _ => None
      end
  end.

(** Overwriting part of a byte string in place (same length). *)
(** In-place change of bytes: the assignment at src/loader/bzimage/mod.rs:162 and [splice] at src/configurator/mod.rs:419. *)
Definition patch (bs : bytes) (off : N) (new : bytes) : bytes :=
  (slice bs 0 off ++ new ++ slice bs (off + lenN new) (lenN bs))%list.

(** Reading the integer (or, for aggregates, the raw bytes as an integer) at a path. *)
(** Field accesses such as those at src/loader/elf/mod.rs:142-160, 222-291, src/loader/bzimage/mod.rs:127-175, src/loader/pe/mod.rs:161-185. *)
Definition get (t : ty) (path : list step) (bs : bytes) : N :=
  match locate t path with
  | Some (o, t') => le_dec (slice bs o (size t'))
  | None => 0
  end.

(** [s.field = v]: assignment of an integer, truncated to the field width. *)
(** Field accesses such as those at src/loader/elf/mod.rs:142-160, 222-291, src/loader/bzimage/mod.rs:127-175, src/loader/pe/mod.rs:161-185. *)
Definition set (t : ty) (path : list step) (v : N) (bs : bytes) : bytes :=
  match locate t path with
  | Some (o, t') => patch bs o (le_enc (N.to_nat (size t')) v)
  | None => bs
  end.

(** [s.field = other_struct]. *)
(** Field accesses such as those at src/loader/elf/mod.rs:142-160, 222-291, src/loader/bzimage/mod.rs:127-175, src/loader/pe/mod.rs:161-185. *)
Definition set_bytes (t : ty) (path : list step) (v : bytes) (bs : bytes) : bytes :=
  match locate t path with
  | Some (o, t') => patch bs o (slice v 0 (size t'))
  | None => bs
  end.

(** [Default::default()] / [core::mem::zeroed()]: all structs used here are zeroed. *)
(** src/loader_gen/x86_64/bootparam.rs:178-183, 365-370, start_info.rs (derived), src/loader/bzimage/mod.rs:121. *)
Definition default_of (t : ty) : bytes := zeros (size t).

(** src/loader_gen/x86_64/bootparam.rs:108-145, #[repr(C, packed)]. *)
Definition screen_info : ty := Struct true
  [ ("orig_x", U8);
    ("orig_y", U8);
    ("ext_mem_k", U16);
    ("orig_video_page", U16);
    ("orig_video_mode", U8);
    ("orig_video_cols", U8);
    ("flags", U8);
    ("unused2", U8);
    ("orig_video_ega_bx", U16);
    ("unused3", U16);
    ("orig_video_lines", U8);
    ("orig_video_isVGA", U8);
    ("orig_video_points", U16);
    ("lfb_width", U16);
    ("lfb_height", U16);
    ("lfb_depth", U16);
    ("lfb_base", U32);
    ("lfb_size", U32);
    ("cl_magic", U16);
    ("cl_offset", U16);
    ("lfb_linelength", U16);
    ("red_size", U8);
    ("red_pos", U8);
    ("green_size", U8);
    ("green_pos", U8);
    ("blue_size", U8);
    ("blue_pos", U8);
    ("rsvd_size", U8);
    ("rsvd_pos", U8);
    ("vesapm_seg", U16);
    ("vesapm_off", U16);
    ("pages", U16);
    ("vesa_attributes", U16);
    ("capabilities", U32);
    ("ext_lfb_base", U32);
    ("_reserved", Arr 2 U8) ].

(** src/loader_gen/x86_64/bootparam.rs:150-160, #[repr(C, packed)]. *)
Definition apm_bios_info : ty := Struct true
  [ ("version", U16);
    ("cseg", U16);
    ("offset", U32);
    ("cseg_16", U16);
    ("dseg", U16);
    ("flags", U16);
    ("cseg_len", U16);
    ("cseg_16_len", U16);
    ("dseg_len", U16) ].

(** src/loader_gen/x86_64/bootparam.rs:165-170, #[repr(C, packed)]. *)
Definition ist_info : ty := Struct true
  [ ("signature", U32);
    ("command", U32);
    ("event", U32);
    ("perf_level", U32) ].

(** src/loader_gen/x86_64/bootparam.rs:175-177, #[repr(C, packed)]. *)
Definition edid_info : ty := Struct true
  [ ("dummy", Arr 128 U8) ].

(** src/loader_gen/x86_64/bootparam.rs:188-192, #[repr(C, packed)]. *)
Definition boot_e820_entry : ty := Struct true
  [ ("addr", U64);
    ("size", U64);
    ("type", U32) ].

(** src/loader_gen/x86_64/bootparam.rs:202-221, #[repr(C, packed)]. *)
Definition edd_device_params : ty := Struct true
  [ ("length", U16);
    ("info_flags", U16);
    ("num_default_cylinders", U32);
    ("num_default_heads", U32);
    ("sectors_per_track", U32);
    ("number_of_sectors", U64);
    ("bytes_per_sector", U16);
    ("dpte_ptr", U32);
    ("key", U16);
    ("device_path_info_length", U8);
    ("reserved2", U8);
    ("reserved3", U16);
    ("host_bus_type", Arr 4 U8);
    ("interface_type", Arr 8 U8);
    ("interface_path", Arr 8 U8);
    ("device_path", Arr 16 U8);
    ("reserved4", U8);
    ("checksum", U8) ].

(** src/loader_gen/x86_64/bootparam.rs:226-234, #[repr(C, packed)]. *)
Definition edd_info : ty := Struct true
  [ ("device", U8);
    ("version", U8);
    ("interface_support", U16);
    ("legacy_max_cylinder", U16);
    ("legacy_max_head", U8);
    ("legacy_sectors_per_track", U8);
    ("params", edd_device_params) ].

(** src/loader_gen/x86_64/bootparam.rs:239-279, #[repr(C, packed)]. *)
Definition setup_header : ty := Struct true
  [ ("setup_sects", U8);
    ("root_flags", U16);
    ("syssize", U32);
    ("ram_size", U16);
    ("vid_mode", U16);
    ("root_dev", U16);
    ("boot_flag", U16);
    ("jump", U16);
    ("header", U32);
    ("version", U16);
    ("realmode_swtch", U32);
    ("start_sys_seg", U16);
    ("kernel_version", U16);
    ("type_of_loader", U8);
    ("loadflags", U8);
    ("setup_move_size", U16);
    ("code32_start", U32);
    ("ramdisk_image", U32);
    ("ramdisk_size", U32);
    ("bootsect_kludge", U32);
    ("heap_end_ptr", U16);
    ("ext_loader_ver", U8);
    ("ext_loader_type", U8);
    ("cmd_line_ptr", U32);
    ("initrd_addr_max", U32);
    ("kernel_alignment", U32);
    ("relocatable_kernel", U8);
    ("min_alignment", U8);
    ("xloadflags", U16);
    ("cmdline_size", U32);
    ("hardware_subarch", U32);
    ("hardware_subarch_data", U64);
    ("payload_offset", U32);
    ("payload_length", U32);
    ("setup_data", U64);
    ("pref_address", U64);
    ("init_size", U32);
    ("handover_offset", U32);
    ("kernel_info_offset", U32) ].

(** src/loader_gen/x86_64/bootparam.rs:283-286, #[repr(C, packed)]. *)
Definition sys_desc_table : ty := Struct true
  [ ("length", U16);
    ("table", Arr 14 U8) ].

(** src/loader_gen/x86_64/bootparam.rs:290-295, #[repr(C, packed)]. *)
Definition olpc_ofw_header : ty := Struct true
  [ ("ofw_magic", U32);
    ("ofw_version", U32);
    ("cif_handler", U32);
    ("irq_desc_table", U32) ].

(** src/loader_gen/x86_64/bootparam.rs:299-308, #[repr(C, packed)]. *)
Definition efi_info : ty := Struct true
  [ ("efi_loader_signature", U32);
    ("efi_systab", U32);
    ("efi_memdesc_size", U32);
    ("efi_memdesc_version", U32);
    ("efi_memmap", U32);
    ("efi_memmap_size", U32);
    ("efi_systab_hi", U32);
    ("efi_memmap_hi", U32) ].

(** src/loader_gen/x86_64/bootparam.rs:315-351, #[repr(C, packed)]. *)
Definition boot_params : ty := Struct true
  [ ("screen_info", screen_info);
    ("apm_bios_info", apm_bios_info);
    ("_pad2", Arr 4 U8);
    ("tboot_addr", U64);
    ("ist_info", ist_info);
    ("acpi_rsdp_addr", U64);
    ("_pad3", Arr 8 U8);
    ("hd0_info", Arr 16 U8);
    ("hd1_info", Arr 16 U8);
    ("sys_desc_table", sys_desc_table);
    ("olpc_ofw_header", olpc_ofw_header);
    ("ext_ramdisk_image", U32);
    ("ext_ramdisk_size", U32);
    ("ext_cmd_line_ptr", U32);
    ("_pad4", Arr 112 U8);
    ("cc_blob_address", U32);
    ("edid_info", edid_info);
    ("efi_info", efi_info);
    ("alt_mem_k", U32);
    ("scratch", U32);
    ("e820_entries", U8);
    ("eddbuf_entries", U8);
    ("edd_mbr_sig_buf_entries", U8);
    ("kbd_status", U8);
    ("secure_boot", U8);
    ("_pad5", Arr 2 U8);
    ("sentinel", U8);
    ("_pad6", Arr 1 U8);
    ("hdr", setup_header);
    ("_pad7", Arr 36 U8);
    ("edd_mbr_sig_buffer", Arr 16 U32);
    ("e820_table", Arr 128 boot_e820_entry);
    ("_pad8", Arr 48 U8);
    ("eddbuf", Arr 6 edd_info);
    ("_pad9", Arr 276 U8) ].

(** src/loader_gen/x86_64/start_info.rs:22-33, #[repr(C)]. *)
Definition hvm_start_info : ty := Struct false
  [ ("magic", U32);
    ("version", U32);
    ("flags", U32);
    ("nr_modules", U32);
    ("modlist_paddr", U64);
    ("cmdline_paddr", U64);
    ("rsdp_paddr", U64);
    ("memmap_paddr", U64);
    ("memmap_entries", U32);
    ("reserved", U32) ].

(** src/loader_gen/x86_64/start_info.rs:37-42, #[repr(C)]. *)
Definition hvm_modlist_entry : ty := Struct false
  [ ("paddr", U64);
    ("size", U64);
    ("cmdline_paddr", U64);
    ("reserved", U64) ].

(** src/loader_gen/x86_64/start_info.rs:46-51, #[repr(C)]. *)
Definition hvm_memmap_table_entry : ty := Struct false
  [ ("addr", U64);
    ("size", U64);
    ("type_", U32);
    ("reserved", U32) ].

(** src/loader_gen/x86_64/elf.rs:600-603 and 722-725: unions of two equally sized
    integers, represented by that integer. *)
Definition Elf32_Dyn_d_un : ty := U32.
(** src/loader_gen/x86_64/elf.rs:722-725. *)
Definition Elf64_Dyn_d_un : ty := U64.

(** src/loader_gen/x86_64/elf.rs:525-540, #[repr(C)]. *)
Definition Elf32_Ehdr : ty := Struct false
  [ ("e_ident", Arr 16 U8);
    ("e_type", U16);
    ("e_machine", U16);
    ("e_version", U32);
    ("e_entry", U32);
    ("e_phoff", U32);
    ("e_shoff", U32);
    ("e_flags", U32);
    ("e_ehsize", U16);
    ("e_phentsize", U16);
    ("e_phnum", U16);
    ("e_shentsize", U16);
    ("e_shnum", U16);
    ("e_shstrndx", U16) ].

(** src/loader_gen/x86_64/elf.rs:544-553, #[repr(C)]. *)
Definition Elf32_Phdr : ty := Struct false
  [ ("p_type", U32);
    ("p_offset", U32);
    ("p_vaddr", U32);
    ("p_paddr", U32);
    ("p_filesz", U32);
    ("p_memsz", U32);
    ("p_flags", U32);
    ("p_align", U32) ].

(** src/loader_gen/x86_64/elf.rs:557-568, #[repr(C)]. *)
Definition Elf32_Shdr : ty := Struct false
  [ ("sh_name", U32);
    ("sh_type", U32);
    ("sh_flags", U32);
    ("sh_addr", U32);
    ("sh_offset", U32);
    ("sh_size", U32);
    ("sh_link", U32);
    ("sh_info", U32);
    ("sh_addralign", U32);
    ("sh_entsize", U32) ].

(** src/loader_gen/x86_64/elf.rs:572-579, #[repr(C)]. *)
Definition Elf32_Sym : ty := Struct false
  [ ("st_name", U32);
    ("st_value", U32);
    ("st_size", U32);
    ("st_info", U8);
    ("st_other", U8);
    ("st_shndx", U16) ].

(** src/loader_gen/x86_64/elf.rs:583-586, #[repr(C)]. *)
Definition Elf32_Rel : ty := Struct false
  [ ("r_offset", U32);
    ("r_info", U32) ].

(** src/loader_gen/x86_64/elf.rs:590-594, #[repr(C)]. *)
Definition Elf32_Rela : ty := Struct false
  [ ("r_offset", U32);
    ("r_info", U32);
    ("r_addend", U32) ].

(** src/loader_gen/x86_64/elf.rs:609-612, #[repr(C)]. *)
Definition Elf32_Dyn : ty := Struct false
  [ ("d_tag", U32);
    ("d_un", Elf32_Dyn_d_un) ].

(** src/loader_gen/x86_64/elf.rs:616-620, #[repr(C)]. *)
Definition Elf32_Nhdr : ty := Struct false
  [ ("n_namesz", U32);
    ("n_descsz", U32);
    ("n_type", U32) ].

(** src/loader_gen/x86_64/elf.rs:624-632, #[repr(C)]. *)
Definition Elf32_Verdef : ty := Struct false
  [ ("vd_version", U16);
    ("vd_flags", U16);
    ("vd_ndx", U16);
    ("vd_cnt", U16);
    ("vd_hash", U32);
    ("vd_aux", U32);
    ("vd_next", U32) ].

(** src/loader_gen/x86_64/elf.rs:636-639, #[repr(C)]. *)
Definition Elf32_Verdaux : ty := Struct false
  [ ("vda_name", U32);
    ("vda_next", U32) ].

(** src/loader_gen/x86_64/elf.rs:647-662, #[repr(C)]. *)
Definition Elf64_Ehdr : ty := Struct false
  [ ("e_ident", Arr 16 U8);
    ("e_type", U16);
    ("e_machine", U16);
    ("e_version", U32);
    ("e_entry", U64);
    ("e_phoff", U64);
    ("e_shoff", U64);
    ("e_flags", U32);
    ("e_ehsize", U16);
    ("e_phentsize", U16);
    ("e_phnum", U16);
    ("e_shentsize", U16);
    ("e_shnum", U16);
    ("e_shstrndx", U16) ].

(** src/loader_gen/x86_64/elf.rs:666-675, #[repr(C)]. *)
Definition Elf64_Phdr : ty := Struct false
  [ ("p_type", U32);
    ("p_flags", U32);
    ("p_offset", U64);
    ("p_vaddr", U64);
    ("p_paddr", U64);
    ("p_filesz", U64);
    ("p_memsz", U64);
    ("p_align", U64) ].

(** src/loader_gen/x86_64/elf.rs:679-690, #[repr(C)]. *)
Definition Elf64_Shdr : ty := Struct false
  [ ("sh_name", U32);
    ("sh_type", U32);
    ("sh_flags", U64);
    ("sh_addr", U64);
    ("sh_offset", U64);
    ("sh_size", U64);
    ("sh_link", U32);
    ("sh_info", U32);
    ("sh_addralign", U64);
    ("sh_entsize", U64) ].

(** src/loader_gen/x86_64/elf.rs:694-701, #[repr(C)]. *)
Definition Elf64_Sym : ty := Struct false
  [ ("st_name", U32);
    ("st_info", U8);
    ("st_other", U8);
    ("st_shndx", U16);
    ("st_value", U64);
    ("st_size", U64) ].

(** src/loader_gen/x86_64/elf.rs:705-708, #[repr(C)]. *)
Definition Elf64_Rel : ty := Struct false
  [ ("r_offset", U64);
    ("r_info", U64) ].

(** src/loader_gen/x86_64/elf.rs:712-716, #[repr(C)]. *)
Definition Elf64_Rela : ty := Struct false
  [ ("r_offset", U64);
    ("r_info", U64);
    ("r_addend", U64) ].

(** src/loader_gen/x86_64/elf.rs:731-734, #[repr(C)]. *)
Definition Elf64_Dyn : ty := Struct false
  [ ("d_tag", U64);
    ("d_un", Elf64_Dyn_d_un) ].

(** src/loader_gen/x86_64/elf.rs:738-742, #[repr(C)]. *)
Definition Elf64_Nhdr : ty := Struct false
  [ ("n_namesz", U32);
    ("n_descsz", U32);
    ("n_type", U32) ].

(** src/loader_gen/x86_64/elf.rs:746-754, #[repr(C)]. *)
Definition Elf64_Verdef : ty := Struct false
  [ ("vd_version", U16);
    ("vd_flags", U16);
    ("vd_ndx", U16);
    ("vd_cnt", U16);
    ("vd_hash", U32);
    ("vd_aux", U32);
    ("vd_next", U32) ].

(** src/loader_gen/x86_64/elf.rs:758-761, #[repr(C)]. *)
Definition Elf64_Verdaux : ty := Struct false
  [ ("vda_name", U32);
    ("vda_next", U32) ].

(** src/loader/pe/mod.rs:81-92, #[repr(C)]. *)
Definition arm64_image_header : ty := Struct false
  [ ("code0", U32);
    ("code1", U32);
    ("text_offset", U64);
    ("image_size", U64);
    ("flags", U64);
    ("res2", U64);
    ("res3", U64);
    ("res4", U64);
    ("magic", U32);
    ("res5", U32) ].

(** src/loader/pe/mod.rs:105-117, #[repr(C)]. *)
Definition riscv64_image_header : ty := Struct false
  [ ("code0", U32);
    ("code1", U32);
    ("text_offset", U64);
    ("image_size", U64);
    ("flags", U64);
    ("version", U32);
    ("res1", U32);
    ("res2", U64);
    ("magic", U64);
    ("magic2", U32);
    ("res3", U32) ].

