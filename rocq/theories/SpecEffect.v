(** * SpecEffect: what guest memory holds after a call, whatever it reports.

    SpecDecide has the rules for reports; these are the rules for effects, again for calls with a
    working image source. *)
From Verif Require Import Base Io Mem SpecMem SpecFile Text Cmdline Loader SpecElf SpecBz Pe SpecPe
  BootParams Configurators SpecVmm.

(** [bs] is poured in at [a]: its bytes go to [a], [a+1], ... as long as there is guest memory, and
    what is beyond the first missing address is lost. *)
Definition poured (m : gmem) (a : N) (bs : bytes) (m' : gmem) : Prop :=
  exists k, k <= lenN bs /\ range_backed m a k /\ (k < lenN bs -> ~ backed m (a + k)) /\
    regions m' = regions m /\ forall x, gm_byte m' x = put (gm_byte m) a (part bs 0 k) x.

(** Several pieces one after the other. *)
Fixpoint poured_all (m : gmem) (pieces : list (N * bytes)) (m' : gmem) : Prop :=
  match pieces with
  | [] => mem_same m m'
  | (a, bs) :: rest => exists m1, poured m a bs m1 /\ poured_all m1 rest m'
  end.

(** ELF errors of a segment that come after its copy was begun. *)
Definition copying_error (e : lerror) : bool :=
  match e with LElf ReadKernelImage | MemoryOverflow => true | _ => false end.

(** The pieces an ELF load gets round to: none if something is wrong before the segments, else those
    of the headers up to the one that stops it; of the latter itself if it had an address. *)
Inductive elf_tried (f : bytes) (maxpos : N) (off highmem : option N) (m : gmem) : list (N * bytes) -> Prop :=
| et_start e : start_problem f maxpos off highmem e -> elf_tried f maxpos off highmem m []
| et_before pre p post e : start_good f maxpos off highmem -> phdrs_of f = pre ++ p :: post ->
    Forall (ph_fine f maxpos m off) pre -> ph_error f maxpos m off p e -> copying_error e = false ->
    elf_tried f maxpos off highmem m (segs_of f off pre)
| et_during pre p post e : start_good f maxpos off highmem -> phdrs_of f = pre ++ p :: post ->
    Forall (ph_fine f maxpos m off) pre -> ph_error f maxpos m off p e -> copying_error e = true ->
    elf_tried f maxpos off highmem m (segs_of f off (pre ++ [p]))
| et_all : start_good f maxpos off highmem -> Forall (ph_fine f maxpos m off) (phdrs_of f) ->
    elf_tried f maxpos off highmem m (segs_of f off (phdrs_of f)).

(** The pieces a call gets round to, given what it reports. *)
Definition tried (m : gmem) (t : task) (x : report) (pieces : list (N * bytes)) : Prop :=
  match t, x with
  | LoadElf off h im, _ => elf_tried (rd_data im) (rd_maxpos im) off h m pieces
  | LoadBz off _ im, Loaded (Ok _) | LoadBz off _ im, Loaded (Err (LBz ReadBzImageCompressedKernel)) =>
      pieces = [(bz_load_addr (rd_data im) off, payload (rd_data im))]
  | LoadPe a off _ im, Loaded (Ok _) | LoadPe a off _ im, Loaded (Err (LPe PeReadKernelImage)) =>
      pieces = [(pe_load_addr a (rd_data im) off, rd_data im)]
  | LoadDtb addr im, Done (Ok _) | LoadDtb addr im, Done (Err (LPe ReadDtbImage)) => pieces = [(addr, rd_data im)]
  | LoadCmdline addr c, Done (Ok _) | LoadCmdline addr c, Done (Err CommandLineCopy) =>
      exists s, as_cstring c = Ok s /\ pieces = [(addr, s ++ [x00])]
  | WriteLinux p, Written (Ok _) | WriteLinux p, Written (Err (BLinux ZeroPageSetup))
  | WriteFdt p, Written (Ok _) | WriteFdt p, Written (Err (BFdt WriteFDTToMemory)) =>
      pieces = [(header_start p, header p)]
  | WritePvh p, Written (Ok _) | WritePvh p, Written (Err (BPvh ModulesSetup)) => pieces = pvh_areas p
  | WritePvh p, Written (Err (BPvh MemmapTableSetup)) | WritePvh p, Written (Err (BPvh StartInfoPastRamEnd)) =>
      exists s v, sections_start p = Some s /\ sections p = Some v /\ pieces = [(s, v)]
  | WritePvh p, Written (Err (BPvh StartInfoSetup)) | WritePvh p, Written (Err (BPvh ModulesAddressMissing)) =>
      exists s v, sections_start p = Some s /\ sections p = Some v /\ pieces = [(s, v); (header_start p, header p)]
  | _, _ => pieces = []
  end.

(** The pieces of several calls, one after the other. *)
Fixpoint tried_all (m : gmem) (ts : list task) (xs : list report) (pieces : list (N * bytes)) : Prop :=
  match ts, xs with
  | [], [] => pieces = []
  | t :: ts', x :: xs' => exists p q, tried m t x p /\ tried_all m ts' xs' q /\ pieces = p ++ q
  | _, _ => False
  end.
