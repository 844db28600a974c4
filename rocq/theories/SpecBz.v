(** * SpecBz: what a bzImage file says, by absolute file offsets (Linux "The Linux/x86 Boot
    Protocol", "Details of Header Fields"). *)
From Verif Require Import Base Io Mem SpecMem SpecFile Loader.

Definition bz_setup_sects (f : bytes) : N := byte_at f 0x1f1.
Definition bz_magic (f : bytes) : N := u32at f 0x202.
Definition bz_version (f : bytes) : N := u16at f 0x206.
Definition bz_loadflags (f : bytes) : N := byte_at f 0x211.
Definition bz_code32_start (f : bytes) : N := u32at f 0x214.

(** "HdrS", protocol 2.00 or later, LOADED_HIGH. *)
Definition bz_header_good (f : bytes) : Prop :=
  bz_magic f = 0x53726448 /\ 0x200 <= bz_version f /\ bz_loadflags f mod 2 = 1.

(** Size of the real mode part: boot sector plus setup_sects (4 if 0) sectors. *)
Definition bz_setup_size (f : bytes) : N :=
  512 * (1 + (if bz_setup_sects f =? 0 then 4 else bz_setup_sects f)).

(** Where the protected mode part goes. *)
Definition bz_load_addr (f : bytes) (off : option N) : N :=
  match off with Some k => k | None => bz_code32_start f end.
Definition bz_highmem_ok (f : bytes) (highmem : option N) : Prop :=
  match highmem with Some h => h <= bz_code32_start f | None => True end.

(** The destination [a, a+n) exists.  Only the [TryAccess] strategy insists on a mapped
    address for an empty transfer. *)
Definition dest_ok (be : backend) (m : gmem) (a n : N) : Prop :=
  range_backed m a n /\ (n = 0 -> be = TryAccess -> backed m a).

(** The 123 header bytes as the loader got them: [k] bytes arrived, the rest is zero. *)
Definition header_got (f : bytes) (k : N) : bytes :=
  let h := part f 0x1f1 (N.min k 123) in h ++ zeros (123 - lenN h).
(** The file as far as the header read saw it. *)
Definition seen (f : bytes) (k : N) : bytes := part f 0 (0x1f1 + k).

(** The source may cut a read short. *)
Definition short_reads (r : reader) : Prop := exists i, rd_chunk r i < lenN (rd_data r).
(** The source failed or cut a read short somewhere. *)
Definition short_or_fault (r : reader) : Prop :=
  (exists k i, rd_fault r k i = true) \/ short_reads r.

(** Header bytes with the load address stored in [code32_start] (bytes 35 to 38). *)
Definition with_code32 (h : bytes) (a : N) : bytes := part h 0 35 ++ le_enc 4 a ++ part h 39 84.
