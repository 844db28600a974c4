(** * RawIo: an image source that is interrupted, reads short and fails, call by call.

    Io.v treats [Read::read_exact] and vm-memory's retried [read_volatile] as one operation each.  Here every single
    [read] call is visible: it may be interrupted ([ErrorKind::Interrupted], EINTR), fail, or deliver part
    of what was asked for; [read_exact] is std's loop over such calls (library/std/src/io/mod.rs,
    [default_read_exact]) and the copy into guest memory retries interrupted calls (vm-memory's [retry_eintr!]).
    Both are dependencies whose sources are not in /repo.  Used by src/loader/{elf,bzimage,pe}/mod.rs. *)
From Verif Require Import Base Io Source.

(** What an operation of the source amounts to, once it is not interrupted any more. *)
(** A file, as the sources of src/loader/elf/mod.rs:203-300, 312-416, src/loader/bzimage/mod.rs:100-185, src/loader/pe/mod.rs:136-236 usually are. *)
Inductive answer := Fails | Gives (k : N).   (* [Gives k]: a read delivers at most max(1,k) bytes; a seek succeeds *)

(** A file, as the sources of src/loader/elf/mod.rs:203-300, 312-416, src/loader/bzimage/mod.rs:100-185, src/loader/pe/mod.rs:136-236 usually are. *)
Record raw := mkRaw {
  rw_data : bytes;
  rw_pos : N;
  rw_maxpos : N;
  rw_script : nat -> nat * answer;  (* for the i-th operation: how many times reads are interrupted first, and the answer *)
  rw_ops : nat;                     (* operations answered so far *)
  rw_intr : nat                     (* interruptions already reported for the current operation *)
}.

(** The result of one [read] call. *)
(** A file, as the sources of src/loader/elf/mod.rs:203-300, 312-416, src/loader/bzimage/mod.rs:100-185, src/loader/pe/mod.rs:136-236 usually are. *)
Inductive got := Interrupted | Failed | Got (bs : bytes).

(** The operation is answered; the position becomes [p]. *)
(** A file, as the sources of src/loader/elf/mod.rs:203-300, 312-416, src/loader/bzimage/mod.rs:100-185, src/loader/pe/mod.rs:136-236 usually are. *)
Definition answered (s : raw) (p : N) : raw :=
  mkRaw (rw_data s) p (rw_maxpos s) (rw_script s) (S (rw_ops s)) 0.

(** One [read] (or [read_volatile]) call with a buffer of [n] bytes. *)
(** A file, as the sources of src/loader/elf/mod.rs:203-300, 312-416, src/loader/bzimage/mod.rs:100-185, src/loader/pe/mod.rs:136-236 usually are. *)
Definition raw_read (s : raw) (n : N) : raw * got :=
  let (i, a) := rw_script s (rw_ops s) in
  if (rw_intr s <? i)%nat then
    (mkRaw (rw_data s) (rw_pos s) (rw_maxpos s) (rw_script s) (rw_ops s) (S (rw_intr s)), Interrupted)
  else match a with
       | Fails => (answered s (rw_pos s), Failed)
       | Gives k =>
           let c := N.min n (N.min (lenN (rw_data s) - rw_pos s) (N.max 1 k)) in
           (answered s (rw_pos s + c), Got (slice (rw_data s) (rw_pos s) c))
       end.

(** [seek]: not interruptible. *)
(** std, under the seeks at src/loader/elf/mod.rs:212, 241, 273, 330, 376, 389, src/loader/bzimage/mod.rs:115, 118, 172, src/loader/pe/mod.rs:146, 154, 196, 227, 232. *)
Definition raw_seek (s : raw) (p : N) (possible : bool) : raw * option N :=
  match snd (rw_script s (rw_ops s)) with
  | Fails => (answered s (rw_pos s), None)
  | Gives _ => if possible then (answered s p, Some p) else (answered s (rw_pos s), None)
  end.
(** std, under the seeks at src/loader/elf/mod.rs:212, 241, 273, 330, 376, 389, src/loader/bzimage/mod.rs:115, 118, 172, src/loader/pe/mod.rs:146, 154, 196, 227, 232. *)
Definition raw_seek_start (s : raw) (p : N) : raw * option N := raw_seek s p (p <=? rw_maxpos s).
(** std, under the seeks at src/loader/elf/mod.rs:212, 241, 273, 330, 376, 389, src/loader/bzimage/mod.rs:115, 118, 172, src/loader/pe/mod.rs:146, 154, 196, 227, 232. *)
Definition raw_seek_end (s : raw) : raw * option N := raw_seek s (lenN (rw_data s)) true.
(** std, under the seeks at src/loader/elf/mod.rs:212, 241, 273, 330, 376, 389, src/loader/bzimage/mod.rs:115, 118, 172, src/loader/pe/mod.rs:146, 154, 196, 227, 232. *)
Definition raw_seek_cur (s : raw) (d : Z) : raw * option N :=
  let p := (Z.of_N (rw_pos s) + d)%Z in
  raw_seek s (Z.to_N p) ((0 <=? p)%Z && (Z.to_N p <=? rw_maxpos s)).

(** One call, no retry (src/loader/bzimage/mod.rs:123): an interruption is an error like any other. *)
Definition raw_once (s : raw) (n : N) : raw * option bytes :=
  match raw_read s n with
  | (s', Got bs) => (s', Some bs)
  | (s', _) => (s', None)
  end.

(** [retry_eintr!(read_volatile)]: call again while interrupted.  The loop equation is [C74_retry_loop]. *)
(** vm-memory, under the calls at src/loader/elf/mod.rs:286, src/loader/bzimage/mod.rs:175, src/loader/pe/mod.rs:198, 234. *)
Fixpoint retry_upto (fuel : nat) (s : raw) (n : N) : raw * option bytes :=
  match raw_read s n, fuel with
  | (s', Got bs), _ => (s', Some bs)
  | (s', Failed), _ => (s', None)
  | (s', Interrupted), O => (s', None)
  | (s', Interrupted), S fuel' => retry_upto fuel' s' n
  end.
(** vm-memory, under the calls at src/loader/elf/mod.rs:286, src/loader/bzimage/mod.rs:175, src/loader/pe/mod.rs:198, 234. *)
Definition raw_retry (s : raw) (n : N) : raw * option bytes :=
  retry_upto (fst (rw_script s (rw_ops s)) - rw_intr s) s n.

(** std's [default_read_exact]: until the buffer is full; an empty read is the end of the file; interruptions
    are ignored.  The loop equation is [C74_read_exact_loop]. *)
(** std, under the header reads of src/loader/elf/mod.rs:216, 248, 341, 348, 405 and src/loader/pe/mod.rs:157. *)
Fixpoint exact_upto (fuel : nat) (s : raw) (n : N) : raw * option bytes :=
  if n =? 0 then (s, Some [])
  else match fuel with
       | O => (s, None)
       | S fuel' =>
           match raw_read s n with
           | (s', Interrupted) => exact_upto fuel' s' n
           | (s', Failed) => (s', None)
           | (s', Got []) => (s', None)
           | (s', Got bs) =>
               match exact_upto fuel' s' (n - lenN bs) with
               | (s'', Some rest) => (s'', Some (bs ++ rest))
               | (s'', None) => (s'', None)
               end
           end
       end.
(** Number of [read] calls the next [n] answers take at most. *)
(** A file, as the sources of src/loader/elf/mod.rs:203-300, 312-416, src/loader/bzimage/mod.rs:100-185, src/loader/pe/mod.rs:136-236 usually are. *)
Fixpoint calls (script : nat -> nat * answer) (i : nat) (n : nat) : nat :=
  match n with
  | O => O
  | S k => S (fst (script i)) + calls script (S i) k
  end.
(** std, under the header reads of src/loader/elf/mod.rs:216, 248, 341, 348, 405 and src/loader/pe/mod.rs:157. *)
Definition raw_read_exact (s : raw) (n : N) : raw * option bytes :=
  exact_upto (calls (rw_script s) (rw_ops s) (N.to_nat n)) s n.

(** A file, as the sources of src/loader/elf/mod.rs:203-300, 312-416, src/loader/bzimage/mod.rs:100-185, src/loader/pe/mod.rs:136-236 usually are. *)
Definition raw_source : source raw :=
  mkSource raw (fun s => length (rw_data s)) raw_seek_start raw_seek_end raw_seek_cur raw_read_exact raw_once raw_retry.

(** Does the script ever fail, interrupt, or cut a read short? *)
(** A file, as the sources of src/loader/elf/mod.rs:203-300, 312-416, src/loader/bzimage/mod.rs:100-185, src/loader/pe/mod.rs:136-236 usually are. *)
Definition raw_fails (s : raw) : Prop := exists i, snd (rw_script s i) = Fails.
(** A file, as the sources of src/loader/elf/mod.rs:203-300, 312-416, src/loader/bzimage/mod.rs:100-185, src/loader/pe/mod.rs:136-236 usually are. *)
Definition raw_interrupts (s : raw) : Prop := exists i, (0 < fst (rw_script s i))%nat.
(** A file, as the sources of src/loader/elf/mod.rs:203-300, 312-416, src/loader/bzimage/mod.rs:100-185, src/loader/pe/mod.rs:136-236 usually are. *)
Definition raw_cuts (s : raw) : Prop := exists i k, snd (rw_script s i) = Gives k /\ k < lenN (rw_data s).
