(** * SpecVmm: a VMM preparing a guest.

    The client's view: a VMM calls the crate's loading and writing functions one after the
    other on the same guest memory, each loader on an image file of its own.  This file says
    what such a program is, which bytes every call puts where when it succeeds ([writes]), and
    which addresses it may touch whatever its outcome ([touches]).  The last two are written
    down from the file formats and the caller's arguments only. *)
From Verif Require Import Base Io Mem SpecMem SpecFile Text Cmdline Loader Elf SpecElf BzImage SpecBz Pe SpecPe
  BootParams Configurators.

Inductive task :=
| LoadElf (off highmem : option N) (image : reader)
| LoadBz (off highmem : option N) (image : reader)
| LoadPe (a : arch) (off highmem : option N) (image : reader)
| LoadDtb (addr : N) (image : reader)
| LoadCmdline (addr : N) (c : cmdline)
| WriteLinux (p : boot_info)
| WriteFdt (p : boot_info)
| WritePvh (p : boot_info).

(** What a call reports to the VMM. *)
Inductive report :=
| Loaded (o : outcome lerror load_result)
| Done (o : outcome lerror unit)
| Written (o : outcome berror unit).

Definition perform (bld : build) (be : backend) (t : task) (m : gmem) : gmem * report :=
  match t with
  | LoadElf off h im => match elf_load bld be off h im m with (_, m', o) => (m', Loaded o) end
  | LoadBz off h im => match bz_load be off h im m with (_, m', o) => (m', Loaded o) end
  | LoadPe a off h im => match pe_load a be off h im m with (_, m', o) => (m', Loaded o) end
  | LoadDtb addr im => match load_dtb be addr im m with (_, m', o) => (m', Done o) end
  | LoadCmdline addr c => match load_cmdline bld be m addr c with (m', o) => (m', Done o) end
  | WriteLinux p => match linux_write_bootparams be p m with (m', o) => (m', Written o) end
  | WriteFdt p => match fdt_write_bootparams be p m with (m', o) => (m', Written o) end
  | WritePvh p => match pvh_write_bootparams be p m with (m', o) => (m', Written o) end
  end.

(** All the calls, whatever they report; the reports in order. *)
Fixpoint perform_all (bld : build) (be : backend) (ts : list task) (m : gmem) : gmem * list report :=
  match ts with
  | [] => (m, [])
  | t :: ts' =>
      let (m1, x) := perform bld be t m in
      let (m2, xs) := perform_all bld be ts' m1 in (m2, x :: xs)
  end.

Definition success (x : report) : Prop :=
  (exists res, x = Loaded (Ok res)) \/ x = Done (Ok tt) \/ x = Written (Ok tt).
Definition panics (x : report) : Prop :=
  exists p, x = Loaded (Panic p) \/ x = Done (Panic p) \/ x = Written (Panic p).

(** What Rust's types and the operating system guarantee about the arguments. *)
Definition task_typed (t : task) : Prop :=
  match t with
  | LoadElf _ _ im | LoadPe _ _ _ im | LoadDtb _ im => wf_reader im
  | LoadBz off _ im => wf_reader im /\ 0x1f1 <= rd_maxpos im /\ (forall a, off = Some a -> a < 2 ^ 64)
  | _ => True
  end.

(** The bytes following the setup part of a bzImage. *)
Definition payload (f : bytes) : bytes := part f (bz_setup_size f) (lenN f - bz_setup_size f).

(** The areas of a PVH boot: memory map, start info, modules. *)
Definition pvh_areas (p : boot_info) : list (N * bytes) :=
  match sections_start p, sections p with Some a, Some v => [(a, v)] | _, _ => [] end ++
  [(header_start p, header p)] ++
  match modules_start p, modules p with Some a, Some v => [(a, v)] | _, _ => [] end.

(** The pieces a successful call puts into guest memory, in this order. *)
Definition writes (t : task) (x : report) : list (N * bytes) :=
  match t, x with
  | LoadElf off _ im, Loaded (Ok _) => segs_of (rd_data im) off (phdrs_of (rd_data im))
  | LoadBz _ _ im, Loaded (Ok res) => [(kernel_load res, payload (rd_data im))]
  | LoadPe a off _ im, Loaded (Ok _) => [(pe_load_addr a (rd_data im) off, rd_data im)]
  | LoadDtb addr im, Done (Ok _) => [(addr, rd_data im)]
  | LoadCmdline addr c, Done (Ok _) => match as_cstring c with Ok s => [(addr, s ++ [x00])] | _ => [] end
  | WriteLinux p, Written (Ok _) | WriteFdt p, Written (Ok _) => [(header_start p, header p)]
  | WritePvh p, Written (Ok _) => pvh_areas p
  | _, _ => []
  end.

(** The addresses a call may write to, on any outcome. *)
Definition touches (t : task) (x : N) : Prop :=
  match t with
  | LoadElf off _ im => exists p, In p (phdrs_of (rd_data im)) /\ seg_dest off p x
  | LoadBz off _ im =>
      (* the load address as the header read saw it: complete, unless the source cut a read short *)
      exists k, (k = 123 \/ short_reads im) /\
        in_range (bz_load_addr (seen (rd_data im) k) off) (lenN (payload (rd_data im))) x
  | LoadPe a off _ im => in_range (pe_load_addr a (rd_data im) off) (lenN (rd_data im)) x
  | LoadDtb addr im => in_range addr (lenN (rd_data im)) x
  | LoadCmdline addr c =>
      match as_cstring c with Ok s => in_range addr (lenN s + 1) x | _ => False end
  | WriteLinux p | WriteFdt p => in_range (header_start p) (lenN (header p)) x
  | WritePvh p => exists s, In s (pvh_areas p) /\ in_range (fst s) (lenN (snd s)) x
  end.

(** Two calls work on different parts of guest memory. *)
Definition separate (t u : task) : Prop := forall x, touches t x -> ~ touches u x.
Definition all_separate (ts : list task) : Prop := ForallOrdPairs separate ts.

(** The same request again: same call and arguments, an image of the same content (the image
    source itself may behave differently: other position, other read sizes, other faults). *)
Definition same_request (t u : task) : Prop :=
  match t, u with
  | LoadElf off _ im, LoadElf off' _ im' => off = off' /\ rd_data im = rd_data im'
  | LoadBz off _ im, LoadBz off' _ im' =>
      off = off' /\ rd_data im = rd_data im' /\
      (off = None -> ~ short_reads im /\ ~ short_reads im')
  | LoadPe a off _ im, LoadPe a' off' _ im' => a = a' /\ off = off' /\ rd_data im = rd_data im'
  | LoadDtb addr im, LoadDtb addr' im' => addr = addr' /\ rd_data im = rd_data im'
  | LoadCmdline addr c, LoadCmdline addr' c' => addr = addr' /\ as_cstring c = as_cstring c'
  | WriteLinux p, WriteLinux p' | WriteFdt p, WriteFdt p' => header_start p = header_start p' /\ header p = header p'
  | WritePvh p, WritePvh p' => p = p'
  | _, _ => False
  end.

(** ** What a call's outcome may depend on.
    Two guest memories that hold the same bytes at the same addresses; how the memory is split
    into regions, and in which order these are listed, is left open. *)
Definition same_guest (m1 m2 : gmem) : Prop :=
  (forall a, backed m1 a <-> backed m2 a) /\ (forall a, backed m1 a -> gm_byte m1 a = gm_byte m2 a).
(** Two sources of the same image.  Where they stand and how many bytes they return per read is
    left open. *)
Definition same_image (r1 r2 : reader) : Prop := rd_data r1 = rd_data r2 /\ rd_maxpos r1 = rd_maxpos r2.
Definition same_call (t u : task) : Prop :=
  match t, u with
  | LoadElf off h im, LoadElf off' h' im' => off = off' /\ h = h' /\ same_image im im'
  | LoadBz off h im, LoadBz off' h' im' => off = off' /\ h = h' /\ same_image im im'
  | LoadPe a off _ im, LoadPe a' off' _ im' => a = a' /\ off = off' /\ same_image im im'
  | LoadDtb addr im, LoadDtb addr' im' => addr = addr' /\ same_image im im'
  | LoadCmdline addr c, LoadCmdline addr' c' => addr = addr' /\ c = c'
  | WriteLinux p, WriteLinux p' | WriteFdt p, WriteFdt p' | WritePvh p, WritePvh p' => p = p'
  | _, _ => False
  end.
(** The source does not fail; a bzImage source, or any source read slice by slice, does not cut
    reads short (these callers do not retry). *)
Definition steady (be : backend) (t : task) : Prop :=
  match t with
  | LoadElf _ _ im | LoadPe _ _ _ im | LoadDtb _ im => ~ io_trouble be im
  | LoadBz _ _ im => ~ short_or_fault im
  | _ => True
  end.
