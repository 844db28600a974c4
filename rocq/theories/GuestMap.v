(** * GuestMap: how vm-memory builds a guest memory and finds the region of an address.

    vm-memory is a dependency and its source is not available here.  This file models the two parts
    of it that decide which guest memories there are: [GuestMemoryMmap::from_ranges], called at
    src/loader/mod.rs:215, 261, src/loader/elf/mod.rs:190, 442, 600, src/loader/bzimage/mod.rs:92, 200,
    src/loader/pe/mod.rs:248, src/configurator/x86_64/linux.rs:76, 129, pvh.rs:116, 195,
    src/configurator/fdt.rs:64, 105, src/lib.rs:84, benches/x86_64/mod.rs:35 and benches/fdt.rs:26, and
    [find_region], on which [Mem.find_region] is based. *)
From Verif Require Import Base Mem.

(** The errors of [from_ranges]: a mapping of no bytes cannot be made, a region must end below 2^64,
    and the region table must be non-empty, sorted and free of overlaps.
    vm-memory, under the calls at src/loader/mod.rs:215 and 261 and those listed above. *)
Inductive map_error := CannotMap | InvalidGuestRegion | NoMemoryRegion | UnsortedMemoryRegions | MemoryRegionOverlap.

(** [GuestRegionMmap::from_range].  Simplified: mmap of any other size succeeds.
    vm-memory, under the calls at src/loader/mod.rs:215 and 261. *)
Definition from_range (base len : N) : outcome map_error region :=
  if len =? 0 then Err CannotMap
  else match checked_add base len with
       | None => Err InvalidGuestRegion
       | Some _ => Ok (mkRegion base len)
       end.

(** The regions one after the other; the first failure is reported.
    vm-memory, under the calls at src/loader/mod.rs:215 and 261. *)
Fixpoint from_each (ranges : list (N * N)) : outcome map_error (list region) :=
  match ranges with
  | [] => Ok []
  | (base, len) :: rest =>
      obind (from_range base len) (fun r => obind (from_each rest) (fun rs => Ok (r :: rs)))
  end.

(** [GuestMemoryRegion::last_addr].
    vm-memory, under the calls at src/loader/mod.rs:215 and 261. *)
Definition region_last (r : region) : N := r_base r + (r_len r - 1).

(** The check of each two neighbours of the table, in this order.
    vm-memory, under the calls at src/loader/mod.rs:215 and 261. *)
Fixpoint check_neighbours (rs : list region) : outcome map_error unit :=
  match rs with
  | prev :: ((next :: _) as rest) =>
      if r_base next <? r_base prev then Err UnsortedMemoryRegions
      else if r_base next <=? region_last prev then Err MemoryRegionOverlap
      else check_neighbours rest
  | _ => Ok tt
  end.

(** [GuestMemoryMmap::from_ranges]: anonymous mappings, so all bytes are zero.
    vm-memory, called at src/loader/mod.rs:215, 261 and the places listed above. *)
Definition from_ranges (ranges : list (N * N)) : outcome map_error gmem :=
  obind (from_each ranges) (fun rs =>
    match rs with
    | [] => Err NoMemoryRegion
    | _ => obind (check_neighbours rs) (fun _ => Ok (mkMem rs (fun _ => x00)))
    end).

(** What [slice::binary_search_by_key] reports: the index of the key or the place where it would go. *)
(** core, under vm-memory's [find_region], under src/loader/mod.rs:246. *)
Inductive place_found := At (i : nat) | Gap (i : nat).

(** The loop of [slice::binary_search_by]: halve [size] and move [base] up unless the key in the middle is greater.
    core, under vm-memory's [find_region], under src/loader/mod.rs:246. *)
Fixpoint halve (fuel : nat) (keys : list N) (k : N) (base size : nat) : nat :=
  match fuel with
  | O => base
  | S fuel' =>
      if (size <=? 1)%nat then base
      else let half := Nat.div2 size in
           let mid := (base + half)%nat in
           halve fuel' keys k (if k <? nth mid keys 0 then base else mid) (size - half)
  end.

(** [slice::binary_search_by_key] as in core.
    core, under vm-memory's [find_region], under src/loader/mod.rs:246. *)
Definition binary_search (keys : list N) (k : N) : place_found :=
  match keys with
  | [] => Gap 0
  | _ =>
      let base := halve (length keys) keys k 0 (length keys) in
      let x := nth base keys 0 in
      if x =? k then At base else Gap (if x <? k then base + 1 else base)
  end.

(** vm-memory's [find_region]: the region that starts at [a], else the one before the gap if it reaches [a].
    vm-memory, under the calls at src/loader/mod.rs:246, src/configurator/x86_64/linux.rs:105, pvh.rs:160, 167, src/configurator/fdt.rs:85. *)
Definition search_region (search : list N -> N -> place_found) (m : gmem) (a : N) : option region :=
  match search (map r_base (regions m)) a with
  | At i => nth_error (regions m) i
  | Gap i =>
      if (0 <? i)%nat then
        match nth_error (regions m) (i - 1) with
        | Some r => if a <=? region_last r then Some r else None
        | None => None
        end
      else None
  end.
