(** * Io: the kernel image source ([F: Read + ReadVolatile + Seek]).

    Models std::io::{Read, Seek} and vm_memory::ReadVolatile as used by
    src/loader/elf/mod.rs, src/loader/bzimage/mod.rs and src/loader/pe/mod.rs.
    The content of the image does not change during a load. *)
From Verif Require Import Base.

(** The two kinds of operation, as far as failing is concerned. *)
(** Sources are used at src/loader/elf/mod.rs:212-286, 330-408, src/loader/bzimage/mod.rs:114-176, src/loader/pe/mod.rs:145-199, 226-235. *)
Inductive io_kind := Seeking | Reading.

(** Sources are used at src/loader/elf/mod.rs:212-286, 330-408, src/loader/bzimage/mod.rs:114-176, src/loader/pe/mod.rs:145-199, 226-235. *)
Record reader := mkReader {
  rd_data : bytes;          (* the whole image *)
  rd_pos : N;               (* current position; may be past the end, as with File and Cursor *)
  rd_maxpos : N;            (* largest position [seek] accepts: 2^63-1 for File, 2^64-1 for Cursor *)
  rd_chunk : nat -> N;      (* oracle: how many bytes the i-th operation may transfer at most *)
  rd_fault : io_kind -> nat -> bool;   (* oracle: does the i-th operation, if of this kind, fail with an I/O error *)
  rd_ops : nat              (* number of operations performed so far *)
}.

(** Sources are used at src/loader/elf/mod.rs:212-286, 330-408, src/loader/bzimage/mod.rs:114-176, src/loader/pe/mod.rs:145-199, 226-235. *)
Definition rd_step (r : reader) (pos : N) : reader :=
  mkReader (rd_data r) pos (rd_maxpos r) (rd_chunk r) (rd_fault r) (S (rd_ops r)).

(** Sources are used at src/loader/elf/mod.rs:212-286, 330-408, src/loader/bzimage/mod.rs:114-176, src/loader/pe/mod.rs:145-199, 226-235. *)
Definition rd_len (r : reader) : N := lenN (rd_data r).

(** [seek(SeekFrom::Start(p))] and [rewind()] (= p 0).  Result: [None] = I/O error. *)
(** Called at src/loader/elf/mod.rs:212, 241, 273, 330, 376, src/loader/bzimage/mod.rs:118, 172, src/loader/pe/mod.rs:154, 196, 232. *)
Definition seek_start (r : reader) (p : N) : reader * option N :=
  if rd_fault r Seeking (rd_ops r) then (rd_step r (rd_pos r), None)
  else if rd_maxpos r <? p then (rd_step r (rd_pos r), None)
  else (rd_step r p, Some p).

(** [seek(SeekFrom::End(0))]: the length of the image. *)
(** Called at src/loader/bzimage/mod.rs:115, src/loader/pe/mod.rs:146, 227. *)
Definition seek_end (r : reader) : reader * option N :=
  if rd_fault r Seeking (rd_ops r) then (rd_step r (rd_pos r), None)
  else (rd_step r (rd_len r), Some (rd_len r)).

(** [seek(SeekFrom::Current(d))]; a negative or too large target is an error. *)
(** Called at src/loader/elf/mod.rs:389. *)
Definition seek_cur (r : reader) (d : Z) : reader * option N :=
  let p := (Z.of_N (rd_pos r) + d)%Z in
  if rd_fault r Seeking (rd_ops r) then (rd_step r (rd_pos r), None)
  else if (p <? 0)%Z || (rd_maxpos r <? Z.to_N p) then (rd_step r (rd_pos r), None)
  else (rd_step r (Z.to_N p), Some (Z.to_N p)).

(** [Read::read_exact(buf)] with [buf.len() = n].  std's implementation retries
    short reads until the buffer is full or end of file; so it is all or nothing.
    Simplification: one operation of the fault oracle covers the whole call; after
    an error the position is the end of the image (unspecified in std; the
    loaders return immediately and never look at it). *)
(** Called through [read_from]-like helpers at src/loader/elf/mod.rs:216, 248, 341, 348, 405 and src/loader/pe/mod.rs:157. *)
Definition read_exact (r : reader) (n : N) : reader * option bytes :=
  if rd_fault r Reading (rd_ops r) then (rd_step r (rd_pos r), None)
  else if rd_len r <? rd_pos r + n then (rd_step r (rd_len r), None)
  else (rd_step r (rd_pos r + n), Some (slice (rd_data r) (rd_pos r) n)).

(** A single [ReadVolatile::read_volatile(buf)] with [buf.len() = n]: returns at most [n]
    bytes, possibly fewer (but at least one unless at end of file or [n = 0]). *)
(** Called at src/loader/bzimage/mod.rs:123. *)
Definition read_volatile (r : reader) (n : N) : reader * option bytes :=
  if rd_fault r Reading (rd_ops r) then (rd_step r (rd_pos r), None)
  else
    let k := N.min n (N.min (rd_len r - rd_pos r) (N.max 1 (rd_chunk r (rd_ops r)))) in
    (rd_step r (rd_pos r + k), Some (slice (rd_data r) (rd_pos r) k)).
