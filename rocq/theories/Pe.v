(** * Pe: the PE (arm64 / riscv64 Image) loader and load_dtb, src/loader/pe/mod.rs. *)
From Verif Require Import Base Io Mem Layout Loader.
Open Scope loader_scope.

(** [target_arch]. *)
(** The [cfg]s of src/loader/pe/mod.rs:76-185. *)
Inductive arch := Aarch64 | Riscv64.

(** src/loader/pe/mod.rs:77-122. *)
Definition image_header (a : arch) : ty :=
  match a with Aarch64 => arm64_image_header | Riscv64 => riscv64_image_header end.
(** src/loader/pe/mod.rs:161-185. *)
Definition img_get (a : arch) (f : string) (h : bytes) : N := get (image_header a) [Fld f] h.

(** src/loader/pe/mod.rs:161-168. *)
Definition magic_ok (a : arch) (h : bytes) : bool :=
  match a with
  | Aarch64 => img_get a "magic" h =? 0x644d5241
  | Riscv64 => img_get a "magic2" h =? 0x05435352
  end.

(** src/loader/pe/mod.rs:170-177. *)
Definition text_offset (a : arch) (h : bytes) : N :=
  match a with
  | Aarch64 => if img_get a "image_size" h =? 0 then 0x80000 else img_get a "text_offset" h
  | Riscv64 => img_get a "text_offset" h
  end.

(** src/loader/pe/mod.rs:136-207; the high memory address is ignored. *)
Definition pe_load (a : arch) (be : backend) (off highmem : option N) : L load_result :=
  kernel_size <- lio seek_end (LPe SeekImageEnd) ;;
  lio (fun r => seek_start r 0) (LPe SeekImageHeader) ;;;
  hdr <- lio (fun r => read_exact r (size (image_header a))) (LPe ReadImageHeader) ;;
  if negb (magic_ok a hdr) then lfail (LPe InvalidImageMagicNumber)
  else if match off with
          | Some k => negb (k mod 0x200000 =? 0)
          | None => false
          end then lfail (LPe InvalidBaseAddrAlignment)
  else
    mem_offset <- lpure (ok_or (checked_add (match off with Some k => k | None => 0 end)
                                            (text_offset a hdr)) (LPe InvalidImage)) ;;
    lio (fun r => seek_start r 0) (LPe SeekImageHeader) ;;;
    lcopy be mem_offset kernel_size (LPe PeReadKernelImage) ;;;
    kernel_end <- lpure (ok_or (checked_add mem_offset kernel_size) MemoryOverflow) ;;
    lret (mkResult mem_offset kernel_end None PvhEntryIgnored).

(** src/loader/pe/mod.rs:218-236. *)
Definition load_dtb (be : backend) (addr : N) : L unit :=
  dtb_size <- lio seek_end (LPe SeekDtbEnd) ;;
  if 0x200000 <? dtb_size then lfail (LPe DtbTooBig)
  else
    lio (fun r => seek_start r 0) (LPe SeekDtbStart) ;;;
    lcopy be addr dtb_size (LPe ReadDtbImage).
