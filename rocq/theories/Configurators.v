(** * Configurators: writing boot parameters to guest memory. *)
From Verif Require Import Base Io Mem BootParams.

(** [checked_offset(start, bytes.len()).ok_or(e1)?; write_slice(bytes, start).map_err(|_| e2)?] *)
(** src/configurator/x86_64/linux.rs:104-109, pvh.rs:159-171, src/configurator/fdt.rs:84-91. *)
Definition check_and_write (be : backend) (m : gmem) (start : N) (bs : bytes) (e1 e2 : berror)
  : gmem * outcome berror unit :=
  match checked_offset m start (lenN bs) with
  | None => (m, Err e1)
  | Some _ =>
      match write_slice be m bs start with
      | (m', Ok _) => (m', Ok tt)
      | (m', Err _) => (m', Err e2)
      | (m', Panic p) => (m', Panic p)
      end
  end.

(** src/configurator/x86_64/linux.rs:98-112. *)
Definition linux_write_bootparams (be : backend) (p : boot_info) (m : gmem) : gmem * outcome berror unit :=
  check_and_write be m (header_start p) (header p) (BLinux ZeroPagePastRamEnd) (BLinux ZeroPageSetup).

(** src/configurator/fdt.rs:80-92. *)
Definition fdt_write_bootparams (be : backend) (p : boot_info) (m : gmem) : gmem * outcome berror unit :=
  check_and_write be m (header_start p) (header p) (BFdt FDTPastRamEnd) (BFdt WriteFDTToMemory).

(** src/configurator/x86_64/pvh.rs:146-181. *)
Definition pvh_write_bootparams (be : backend) (p : boot_info) (m : gmem) : gmem * outcome berror unit :=
  match sections p with
  | None => (m, Err (BPvh MemmapTableMissing))
  | Some memmap =>
  match sections_start p with
  | None => (m, Err (BPvh MemmapTableAddressMissing))
  | Some memmap_addr =>
  match check_and_write be m memmap_addr memmap (BPvh MemmapTablePastRamEnd) (BPvh MemmapTableSetup) with
  | (m1, Ok _) =>
      match check_and_write be m1 (header_start p) (header p)
              (BPvh StartInfoPastRamEnd) (BPvh StartInfoSetup) with
      | (m2, Ok _) =>
          match modules p with
          | None => (m2, Ok tt)
          | Some mods =>
              match modules_start p with
              | None => (m2, Err (BPvh ModulesAddressMissing))
              | Some modules_addr =>
                  match write_slice be m2 mods modules_addr with
                  | (m3, Ok _) => (m3, Ok tt)
                  | (m3, Err _) => (m3, Err (BPvh ModulesSetup))
                  | (m3, Panic q) => (m3, Panic q)
                  end
              end
          end
      | r => r
      end
  | r => r
  end
  end
  end.
