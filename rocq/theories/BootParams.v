(** * BootParams: boot parameter lists, src/configurator/mod.rs. *)
From Verif Require Import Base Io Mem.

(** src/configurator/x86_64/linux.rs, src/configurator/x86_64/pvh.rs:29-46,
    src/configurator/fdt.rs:15-20. *)
Inductive linux_error := ZeroPagePastRamEnd | ZeroPageSetup.
(** src/configurator/x86_64/pvh.rs:29-46. *)
Inductive pvh_error :=
| MemmapTableAddressMissing | MemmapTableMissing | MemmapTablePastRamEnd | MemmapTableSetup
| StartInfoPastRamEnd | StartInfoSetup | ModulesAddressMissing | ModulesSetup.
(** src/configurator/fdt.rs:15-20. *)
Inductive fdt_error := FDTPastRamEnd | WriteFDTToMemory.

(** src/configurator/mod.rs: [Error] (all target-dependent variants present). *)
Inductive berror :=
| BLinux (e : linux_error) | BPvh (e : pvh_error) | BFdt (e : fdt_error)
| MissingStartAddress | BOverflow | InvalidAddress.

(** src/configurator/mod.rs:131-144. *)
Record boot_info := mkBoot {
  header : bytes;
  header_start : N;
  sections : option bytes;
  sections_start : option N;
  modules : option bytes;
  modules_start : option N
}.

(** src/configurator/mod.rs:166-175; [header.as_slice()] is the argument. *)
Definition bp_new (hdr : bytes) (addr : N) : boot_info := mkBoot hdr addr None None None None.

(** src/configurator/mod.rs:211-219 and 320-328: the elements' bytes, in order. *)
Definition set_sections (p : boot_info) (elems : list bytes) (addr : N) : boot_info :=
  mkBoot (header p) (header_start p) (Some (concat elems)) (Some addr) (modules p) (modules_start p).
(** src/configurator/mod.rs:320-328. *)
Definition set_modules (p : boot_info) (elems : list bytes) (addr : N) : boot_info :=
  mkBoot (header p) (header_start p) (sections p) (sections_start p) (Some (concat elems)) (Some addr).

(** [Vec::resize(n, 0)]: aborts with "capacity overflow" beyond isize::MAX bytes. *)
(** Called at src/configurator/mod.rs:418. *)
Definition vec_resize (v : bytes) (n : N) : outcome berror bytes :=
  if n <=? lenN v then Ok (slice v 0 n)
  else if isize_max <? n then Panic CapacityOverflow
  else Ok (v ++ zeros (n - lenN v)).

(** [Vec::splice(from..to, new)]: panics when the range is reversed or past the end. *)
(** Called at src/configurator/mod.rs:419. *)
Definition vec_splice (v : bytes) (from to : N) (new : bytes) : outcome berror bytes :=
  if (to <? from) || (lenN v <? to) then Panic SliceBounds
  else Ok (slice v 0 from ++ new ++ slice v to (lenN v - to)).

(** src/configurator/mod.rs:399-421.  Returns the list and its start address as they are
    afterwards, on every outcome.  [size_of::<T>()] is the element's length. *)
Definition add_to_list (bld : build) (elem : bytes) (elem_start_opt : option N)
  (bytes_acc : bytes) (list_start_opt : option N) : bytes * option N * outcome berror N :=
  let ls := match list_start_opt with None => elem_start_opt | Some _ => list_start_opt end in
  match ls with
  | None => (bytes_acc, ls, Err MissingStartAddress)
  | Some list_start =>
      (* the argument of [unwrap_or] is evaluated first, whether needed or not *)
      match checked_add list_start (lenN bytes_acc) with
      | None => (bytes_acc, ls, Err BOverflow)
      | Some next =>
          let elem_start := match elem_start_opt with Some a => a | None => next end in
          match checked_sub elem_start list_start with
          | None => (bytes_acc, ls, Err InvalidAddress)
          | Some elem_off =>
              match uadd (E := berror) bld elem_off (lenN elem) with
              | Ok elem_end =>
                  match vec_resize bytes_acc (N.max elem_end (lenN bytes_acc)) with
                  | Ok v =>
                      match vec_splice v elem_off elem_end elem with
                      | Ok v' => (v', ls, Ok elem_start)
                      | Err e => (v, ls, Err e)
                      | Panic p => (v, ls, Panic p)
                      end
                  | Err e => (bytes_acc, ls, Err e)
                  | Panic p => (bytes_acc, ls, Panic p)
                  end
              | Err e => (bytes_acc, ls, Err e)
              | Panic p => (bytes_acc, ls, Panic p)
              end
          end
      end
  end.

(** [Option::get_or_insert(vec![])]. *)
(** src/configurator/mod.rs:282, 391. *)
Definition or_empty (o : option bytes) : bytes := match o with Some v => v | None => [] end.

(** src/configurator/mod.rs:274-285. *)
Definition add_section (bld : build) (p : boot_info) (elem : bytes) (addr : option N)
  : boot_info * outcome berror N :=
  match add_to_list bld elem addr (or_empty (sections p)) (sections_start p) with
  | (v, s, o) => (mkBoot (header p) (header_start p) (Some v) s (modules p) (modules_start p), o)
  end.

(** src/configurator/mod.rs:383-394. *)
Definition add_module (bld : build) (p : boot_info) (elem : bytes) (addr : option N)
  : boot_info * outcome berror N :=
  match add_to_list bld elem addr (or_empty (modules p)) (modules_start p) with
  | (v, s, o) => (mkBoot (header p) (header_start p) (sections p) (sections_start p) (Some v) s, o)
  end.
