(** * SpecTrace: what happens while a call runs.

    Guest memory carries the list of the single-byte stores made so far ([gm_log], a ghost no
    modelled function reads).  This file says what it means to replay such stores, which stores a
    call is meant to make, and what it means for several threads to store at the same time. *)
From Verif Require Import Base Io Mem SpecMem SpecFile Cmdline Loader Elf SpecElf BzImage SpecBz Pe SpecPe
  BootParams Configurators SpecVmm.

(** The effect of a list of stores, first store first. *)
Definition replay (l : list (N * byte)) (f : N -> byte) : N -> byte :=
  fold_left (fun g s => fun x => if x =? fst s then snd s else g x) l f.

(** Between [m] and [m'] exactly these stores were made. *)
Definition made (m m' : gmem) (l : list (N * byte)) : Prop := gm_log m' = gm_log m ++ l.

(** The stores that put these pieces into memory, each from its first to its last byte. *)
Definition piece_stores (s : N * bytes) : list (N * byte) := combine (map (fun i => fst s + N.of_nat i) (seq 0 (length (snd s)))) (snd s).
Definition all_stores (pieces : list (N * bytes)) : list (N * byte) := flat_map piece_stores pieces.

(** The pieces a call is meant to put into guest memory, in this order: what the image (or the
    argument) says, without regard to whether the call will succeed. *)
Definition plan (t : task) (pieces : list (N * bytes)) : Prop :=
  match t with
  | LoadElf off _ im => pieces = segs_of (rd_data im) off (phdrs_of (rd_data im))
  | LoadBz off _ im => exists k, (k = 123 \/ short_reads im) /\
      pieces = [(bz_load_addr (seen (rd_data im) k) off, payload (rd_data im))]
  | LoadPe a off _ im => pieces = [(pe_load_addr a (rd_data im) off, rd_data im)]
  | LoadDtb addr im => pieces = [(addr, rd_data im)]
  | LoadCmdline addr c => pieces = match as_cstring c with Ok s => [(addr, s ++ [x00])] | _ => [] end
  | WriteLinux p | WriteFdt p => pieces = [(header_start p, header p)]
  | WritePvh p => pieces = pvh_areas p
  end.

(** When guest memory is filled slice by slice ([GetSlices]), the source does not cut reads short. *)
Definition unbroken (be : backend) (t : task) : Prop :=
  match t with
  | LoadElf _ _ im | LoadBz _ _ im | LoadPe _ _ _ im | LoadDtb _ im => be = TryAccess \/ ~ short_reads im
  | _ => True
  end.

(** The pieces do not overlap. *)
Definition apart (s u : N * bytes) : Prop :=
  forall x, in_range (fst s) (lenN (snd s)) x -> ~ in_range (fst u) (lenN (snd u)) x.
Definition no_overlap (pieces : list (N * bytes)) : Prop := ForallOrdPairs apart pieces.

(** ** Several threads *)
(** The stores one thread makes, performing its calls one after the other. *)
Definition thread_stores (bld : build) (be : backend) (m : gmem) (ts : list task) (l : list (N * byte)) : Prop :=
  exists m' xs, perform_all bld be ts m = (m', xs) /\ made m m' l.

(** [l] is one way of mixing these lists, each keeping its own order. *)
Inductive interleave {A} : list (list A) -> list A -> Prop :=
| il_done ls : Forall (fun l => l = []) ls -> interleave ls []
| il_step before x xs after l :
    interleave (before ++ xs :: after) l -> interleave (before ++ (x :: xs) :: after) (x :: l).

(** The threads work on different parts of guest memory. *)
Definition threads_separate (threads : list (list task)) : Prop :=
  forall i j ts us t u, i <> j -> nth_error threads i = Some ts -> nth_error threads j = Some us ->
    In t ts -> In u us -> separate t u.
Definition thread_touches (ts : list task) (x : N) : Prop := exists t, In t ts /\ touches t x.
