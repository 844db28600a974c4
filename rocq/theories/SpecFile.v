(** * SpecFile: reading little-endian integers at absolute file (or memory image) offsets.

    Specification vocabulary, independent of the model's struct layouts and decoders. *)
From Verif Require Import Base Io Mem.

Definition byte_at (f : bytes) (o : N) : N :=
  match nth_error f (N.to_nat o) with Some b => n8 b | None => 0 end.
Definition u16at (f : bytes) (o : N) : N := byte_at f o + 256 * byte_at f (o + 1).
Definition u32at (f : bytes) (o : N) : N := u16at f o + 65536 * u16at f (o + 2).
Definition u64at (f : bytes) (o : N) : N := u32at f o + 4294967296 * u32at f (o + 4).

(** The [n] bytes of [f] starting at [o]. *)
Definition part (f : bytes) (o n : N) : bytes := firstn (N.to_nat n) (skipn (N.to_nat o) f).

(** A source of at most 2^63-1 bytes that can seek to any position inside itself. *)
Definition wf_reader (r : reader) : Prop :=
  lenN (rd_data r) < 2 ^ 63 /\ lenN (rd_data r) <= rd_maxpos r /\ rd_maxpos r < 2 ^ 64.

(** Something in the environment interferes: a seek fails, ... *)
Definition seek_trouble (r : reader) : Prop := exists i, rd_fault r Seeking i = true.
(** ... a read fails, ... *)
Definition read_fault (r : reader) : Prop := exists i, rd_fault r Reading i = true.
(** ... or (for the region-slice strategy of vm-memory) a read returns fewer bytes than asked for. *)
Definition read_trouble (be : backend) (r : reader) : Prop :=
  read_fault r \/ (be = GetSlices /\ exists i, rd_chunk r i < lenN (rd_data r)).
Definition io_trouble (be : backend) (r : reader) : Prop := seek_trouble r \/ read_trouble be r.
