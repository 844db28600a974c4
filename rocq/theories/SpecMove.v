(** * SpecMove: comparing a call with the same call in another place, in a larger guest, or done in another way.

    Vocabulary of C101 to C103, on top of SpecVmm. *)
From Verif Require Import Base Io Mem SpecMem SpecFile Text Cmdline Loader SpecElf SpecBz Pe SpecPe
  BootParams Configurators SpecVmm.

(** [m2] has memory wherever [m1] has. *)
Definition larger_guest (m1 m2 : gmem) : Prop := forall x, backed m1 x -> backed m2 x.

(** [m2] is [m1] moved up by [d]: what [m1] has at [x] is in [m2] at [x + d]. (Whatever else [m2] has
    below [d] is left open.) *)
Definition guest_moved (d : N) (m1 m2 : gmem) : Prop :=
  (forall x, backed m1 x <-> backed m2 (x + d)) /\ (forall x, backed m1 x -> gm_byte m2 (x + d) = gm_byte m1 x).

(** The same boot parameters for places [d] further up. *)
Definition info_moved (d : N) (p1 p2 : boot_info) : Prop :=
  header p2 = header p1 /\ header_start p2 = header_start p1 + d /\
  sections p2 = sections p1 /\ sections_start p2 = option_map (fun a => a + d) (sections_start p1) /\
  modules p2 = modules p1 /\ modules_start p2 = option_map (fun a => a + d) (modules_start p1).

(** The same call for a place [d] further up: same image, and every address the caller passes is [d] higher.
    An Image of arm64 or riscv64 moves by whole 2 MiB only. *)
Definition call_moved (d : N) (t1 t2 : task) : Prop :=
  match t1, t2 with
  | LoadElf (Some k) h im, LoadElf (Some k') h' im' => k' = k + d /\ h = h' /\ same_image im im'
  | LoadBz (Some k) h im, LoadBz (Some k') h' im' => k' = k + d /\ h = h' /\ same_image im im'
  | LoadPe a (Some k) _ im, LoadPe a' (Some k') _ im' =>
      a = a' /\ k' = k + d /\ d mod (2 * 1024 * 1024) = 0 /\ same_image im im'
  | LoadDtb addr im, LoadDtb addr' im' => addr' = addr + d /\ same_image im im'
  | LoadCmdline addr c, LoadCmdline addr' c' => addr' = addr + d /\ c = c'
  | WriteLinux p, WriteLinux p' | WriteFdt p, WriteFdt p' | WritePvh p, WritePvh p' => info_moved d p p'
  | _, _ => False
  end.

(** The addresses a loader works out. *)
Definition computed (t : task) : list N :=
  match t with
  | LoadElf off _ im =>
      (base_of off + entry_of (rd_data im)) ::
      flat_map (fun p => [base_of off + ph_paddr p; base_of off + ph_paddr p + ph_memsz p]) (loaded (phdrs_of (rd_data im)))
  | LoadPe a off _ im => [pe_load_addr a (rd_data im) off]
  | _ => []
  end.
(** Moving the call by [d] moves no valid address out of the 64-bit range. *)
Definition room_for (d : N) (t : task) : Prop := forall a, In a (computed t) -> a < 2 ^ 64 -> a + d < 2 ^ 64.

(** The same load result [d] further up. An image that loads nothing has end 0, wherever it is. *)
Definition result_moved (d : N) (placed : list (N * bytes)) (r1 r2 : load_result) : Prop :=
  kernel_load r2 = kernel_load r1 + d /\
  kernel_end r2 = match placed with [] => 0 | _ => kernel_end r1 + d end /\
  result_header r2 = option_map (fun h => with_code32 h (kernel_load r2)) (result_header r1) /\
  pvh_boot_cap r2 = pvh_boot_cap r1.
(** The same report: an error is the same error. *)
Definition report_moved (d : N) (t1 : task) (x1 x2 : report) : Prop :=
  match x1, x2 with
  | Loaded (Ok r1), Loaded (Ok r2) => result_moved d (writes t1 x1) r1 r2
  | Loaded (Ok _), _ | _, Loaded (Ok _) => False
  | _, _ => x2 = x1
  end.

(** A default load address spelled out. *)
Definition spelled_out (t1 t2 : task) : Prop :=
  match t1, t2 with
  | LoadBz None h im, LoadBz (Some k) h' im' => k = bz_code32_start (rd_data im) /\ h = h' /\ im = im'
  | LoadPe a None _ im, LoadPe a' (Some k) _ im' => a = a' /\ k = 0 /\ im = im'
  | _, _ => False
  end.

(** No piece the call would store as a whole is empty. *)
Definition nothing_empty (t : task) : Prop :=
  match t with
  | LoadBz _ _ im => payload (rd_data im) <> []
  | LoadDtb _ im => rd_data im <> []
  | WritePvh p => modules p <> Some []
  | _ => True
  end.

(** The pieces of a sequence of calls, in order. *)
Fixpoint all_writes (ts : list task) (xs : list report) : list (N * bytes) :=
  match ts, xs with t :: ts', x :: xs' => writes t x ++ all_writes ts' xs' | _, _ => [] end.
