(** * Mem: guest memory, as provided by the vm-memory crate.

    vm-memory is a dependency and its source is not available here; this file
    models the contract of the methods the crate calls:
    [GuestMemoryBackend::{last_addr, checked_offset}] (used at
    src/loader/mod.rs:241, src/configurator/x86_64/linux.rs:105,
    src/configurator/x86_64/pvh.rs:160,167, src/configurator/fdt.rs:85) and
    [Bytes::{write_slice, read_exact_volatile_from}] (src/loader/mod.rs:246,
    src/loader/elf/mod.rs:286, src/loader/bzimage/mod.rs:175,
    src/loader/pe/mod.rs:198,234, the configurators).  Two strategies for walking
    the regions are covered, see [backend]. *)
From Verif Require Import Base Io.

(** One guest memory region: [r_len] bytes from guest address [r_base]. *)
(** Guest memory ([M: GuestMemoryBackend], vm-memory) is the parameter of src/loader/mod.rs:176-184, 222-226 and src/configurator/mod.rs:124-126. *)
Record region := mkRegion { r_base : N; r_len : N }.

(** Guest memory: the region table and the contents, addressed by guest address
    (regions do not alias each other's backing store). *)
(** [gm_log] is a ghost: the single-byte stores performed so far, oldest first.  Nothing in the model
    reads it; it only lets the specifications talk about what happened in between. *)
(** Guest memory ([M: GuestMemoryBackend], vm-memory) is the parameter of src/loader/mod.rs:176-184, 222-226 and src/configurator/mod.rs:124-126. *)
Record gmem := mkGmem { regions : list region; gm_byte : N -> byte; gm_log : list (N * byte) }.
(** Guest memory ([M: GuestMemoryBackend], vm-memory) is the parameter of src/loader/mod.rs:176-184, 222-226 and src/configurator/mod.rs:124-126. *)
Definition mkMem (rs : list region) (f : N -> byte) : gmem := mkGmem rs f [].

(** Guest memory ([M: GuestMemoryBackend], vm-memory) is the parameter of src/loader/mod.rs:176-184, 222-226 and src/configurator/mod.rs:124-126. *)
Definition region_has (r : region) (a : N) : bool :=
  (r_base r <=? a) && (a <? r_base r + r_len r).

(** [GuestMemoryBackend::find_region]. *)
(** Guest memory ([M: GuestMemoryBackend], vm-memory) is the parameter of src/loader/mod.rs:176-184, 222-226 and src/configurator/mod.rs:124-126. *)
Definition find_region (m : gmem) (a : N) : option region :=
  find (fun r => region_has r a) (regions m).

(** [GuestMemoryBackend::last_addr]: the largest [base + len - 1], 0 without regions. *)
(** Called at src/loader/mod.rs:241. *)
Definition last_addr (m : gmem) : N :=
  fold_left (fun acc r => N.max acc (r_base r + r_len r - 1)) (regions m) 0.

(** [GuestMemoryBackend::checked_offset(base, off)]: [base + off] if that does not
    overflow and the resulting address is inside some region. *)
(** Called at src/configurator/x86_64/linux.rs:105, pvh.rs:160, 167, src/configurator/fdt.rs:85. *)
Definition checked_offset (m : gmem) (base off : N) : option N :=
  match checked_add base off with
  | Some a => match find_region m a with Some _ => Some a | None => None end
  | None => None
  end.

(** What [GuestRegionMmap::new] enforces for each region: it is not empty and
    [base + len] does not overflow. *)
(** Guest memory ([M: GuestMemoryBackend], vm-memory) is the parameter of src/loader/mod.rs:176-184, 222-226 and src/configurator/mod.rs:124-126. *)
Definition wf_mem (m : gmem) : bool :=
  forallb (fun r => (0 <? r_len r) && (r_base r + r_len r <? two64)) (regions m).

(** Byte stores. *)
(** What the writes at src/loader/mod.rs:246, src/loader/elf/mod.rs:286, bzimage/mod.rs:175, pe/mod.rs:198, 234 and the configurators come to. *)
Definition upd (f : N -> byte) (a : N) (b : byte) : N -> byte :=
  fun x => if x =? a then b else f x.

(** What the writes at src/loader/mod.rs:246, src/loader/elf/mod.rs:286, bzimage/mod.rs:175, pe/mod.rs:198, 234 and the configurators come to. *)
Fixpoint store (f : N -> byte) (a : N) (bs : bytes) : N -> byte :=
  match bs with
  | [] => f
  | b :: r => store (upd f a b) (a + 1) r
  end.

(** What the writes at src/loader/mod.rs:246, src/loader/elf/mod.rs:286, bzimage/mod.rs:175, pe/mod.rs:198, 234 and the configurators come to. *)
Fixpoint stores (a : N) (bs : bytes) : list (N * byte) :=
  match bs with
  | [] => []
  | b :: r => (a, b) :: stores (a + 1) r
  end.
(** What the writes at src/loader/mod.rs:246, src/loader/elf/mod.rs:286, bzimage/mod.rs:175, pe/mod.rs:198, 234 and the configurators come to. *)
Definition mem_store (m : gmem) (a : N) (bs : bytes) : gmem :=
  mkGmem (regions m) (store (gm_byte m) a bs) (gm_log m ++ stores a bs).

(** How vm-memory walks the regions:
    - [TryAccess]: [try_access] loops on [find_region(cur)], advances by the number of
      bytes actually transferred (so retries after a short read) and stops at a
      transfer of 0 bytes; an access of 0 bytes at an unmapped address is an error;
    - [GetSlices]: iterates over one slice per region, one transfer for each,
      and adds up the counts; an access of 0 bytes has no slices and succeeds. *)
(** vm-memory, under the calls at src/loader/mod.rs:246, src/configurator/x86_64/linux.rs:108, pvh.rs:163, 170, 176, src/configurator/fdt.rs:90. *)
Inductive backend := TryAccess | GetSlices.

(** Next address: wraps only to exactly 0, else [GuestAddressOverflow]. *)
(** vm-memory, under the calls at src/loader/mod.rs:246, src/configurator/x86_64/linux.rs:108, pvh.rs:163, 170, 176, src/configurator/fdt.rs:90. *)
Definition next_addr (cur n : N) : option N :=
  if cur + n <? two64 then Some (cur + n)
  else if cur + n =? two64 then Some 0
  else None.

(** [Bytes::write]: number of bytes written.  [data] is what remains to be written. *)
(** vm-memory, under the calls at src/loader/mod.rs:246, src/configurator/x86_64/linux.rs:108, pvh.rs:163, 170, 176, src/configurator/fdt.rs:90. *)
Fixpoint write_loop (fuel : nat) (m : gmem) (cur : N) (data : bytes) (total : N)
  : gmem * outcome unit N :=
  match fuel with
  | O => (m, Panic OutOfFuel)
  | S fuel' =>
      match find_region m cur with
      | None => (m, if total =? 0 then Err tt else Ok total)
      | Some r =>
          let cap := r_base r + r_len r - cur in
          let n := N.min cap (lenN data) in
          let m' := mem_store m cur (slice data 0 n) in
          if n =? 0 then (m', Ok total)
          else if n =? lenN data then (m', Ok (total + n))
          else match next_addr cur n with
               | None => (m', Err tt)
               | Some cur' => write_loop fuel' m' cur' (slice data n (lenN data - n)) (total + n)
               end
      end
  end.

(** [Bytes::write_slice]: error unless everything was written. *)
(** vm-memory, under the calls at src/loader/mod.rs:246, src/configurator/x86_64/linux.rs:108, pvh.rs:163, 170, 176, src/configurator/fdt.rs:90. *)
Definition write_slice (be : backend) (m : gmem) (data : bytes) (a : N) : gmem * outcome unit unit :=
  match be, data with
  | GetSlices, [] => (m, Ok tt)
  | _, _ =>
      match write_loop (S (length data)) m a data 0 with
      | (m', Ok n) => (m', if n =? lenN data then Ok tt else Err tt)
      | (m', Err e) => (m', Err e)
      | (m', Panic p) => (m', Panic p)
      end
  end.

(** [Bytes::read_volatile_from]: reads up to [count] bytes from the source into
    guest memory at [cur]; [left] is what remains of the address range, [total] the
    bytes transferred so far. *)
(** vm-memory, under the calls at src/loader/elf/mod.rs:286, src/loader/bzimage/mod.rs:175, src/loader/pe/mod.rs:198, 234. *)
Fixpoint read_loop (be : backend) (fuel : nat) (r : reader) (m : gmem) (cur left total : N)
  : reader * gmem * outcome unit N :=
  match fuel with
  | O => (r, m, Panic OutOfFuel)
  | S fuel' =>
      match find_region m cur with
      | None =>
          (r, m, match be with
                 | TryAccess => if total =? 0 then Err tt else Ok total
                 | GetSlices => Err tt
                 end)
      | Some rg =>
          let cap := r_base rg + r_len rg - cur in
          let n := N.min cap left in
          match read_volatile r n with
          | (r', None) => (r', m, Err tt)
          | (r', Some bs) =>
              let k := lenN bs in
              let m' := mem_store m cur bs in
              let adv := match be with TryAccess => k | GetSlices => n end in
              if adv =? 0 then (r', m', Ok total)
              else if adv =? left then (r', m', Ok (total + k))
              else match next_addr cur adv with
                   | None => (r', m', Err tt)
                   | Some cur' => read_loop be fuel' r' m' cur' (left - adv) (total + k)
                   end
          end
      end
  end.

(** [Bytes::read_exact_volatile_from(addr, src, count)]: error unless exactly [count]
    bytes were transferred. *)
(** vm-memory, under the calls at src/loader/elf/mod.rs:286, src/loader/bzimage/mod.rs:175, src/loader/pe/mod.rs:198, 234. *)
Definition read_exact_volatile_from (be : backend) (r : reader) (m : gmem) (a count : N)
  : reader * gmem * outcome unit unit :=
  match be, count with
  | GetSlices, 0 => (r, m, Ok tt)
  | _, _ =>
      match read_loop be (S (length (rd_data r) + length (regions m))) r m a count 0 with
      | (r', m', Ok n) => (r', m', if n =? count then Ok tt else Err tt)
      | (r', m', Err e) => (r', m', Err e)
      | (r', m', Panic p) => (r', m', Panic p)
      end
  end.
