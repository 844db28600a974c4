(** * BzImage: the bzImage loader, src/loader/bzimage/mod.rs. *)
From Verif Require Import Base Io Mem Layout Loader.
Open Scope loader_scope.

Definition hdr_get (f : string) (h : bytes) : N := get setup_header [Fld f] h.

(** [kernel_image.read_volatile(&mut boot_header.as_bytes())] into a zeroed header: the bytes
    that were read replace the front of the header, the count is dropped
    (src/loader/bzimage/mod.rs:122-125). *)
Definition read_header (r : reader) : reader * option bytes :=
  match read_volatile r (size setup_header) with
  | (r', Some bs) => (r', Some (patch (default_of setup_header) 0 bs))
  | (r', None) => (r', None)
  end.

(** src/loader/bzimage/mod.rs:105-184. *)
Definition bz_load (be : backend) (off highmem : option N) : L load_result :=
  kernel_size0 <- lio seek_end (LBz SeekBzImageEnd) ;;
  lio (fun r => seek_start r 0x1F1) (LBz SeekBzImageHeader) ;;;
  boot_header <- lio read_header (LBz ReadBzImageHeader) ;;
  if negb (hdr_get "header" boot_header =? 0x53726448) then lfail (LBz InvalidBzImage)
  else if (hdr_get "version" boot_header <? 0x0200)
          || (N.land (hdr_get "loadflags" boot_header) 1 =? 0) then lfail (LBz InvalidBzImage)
  else
    let setup_sects := hdr_get "setup_sects" boot_header in
    let setup_size0 := if setup_sects =? 0 then 4 else setup_sects in
    setup_size <- lpure (ok_or (match checked_add setup_size0 1 with
                                | Some x => checked_mul x 512
                                | None => None
                                end) (LBz BzOverflow)) ;;
    kernel_size <- lpure (ok_or (checked_sub kernel_size0 setup_size) (LBz BzUnderflow)) ;;
    if match highmem with
       | Some h => hdr_get "code32_start" boot_header <? h
       | None => false
       end then lfail InvalidKernelStartAddress
    else
      let mem_offset := match off with
                        | Some start => start
                        | None => hdr_get "code32_start" boot_header
                        end in
      let boot_header' := set setup_header [Fld "code32_start"] mem_offset boot_header in
      lio (fun r => seek_start r setup_size) (LBz SeekBzImageCompressedKernel) ;;;
      lcopy be mem_offset kernel_size (LBz ReadBzImageCompressedKernel) ;;;
      kernel_end <- lpure (ok_or (checked_add mem_offset kernel_size) MemoryOverflow) ;;
      lret (mkResult mem_offset kernel_end (Some boot_header') PvhEntryIgnored).
