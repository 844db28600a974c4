(** * Props_GuestElf: C110, an ELF kernel booted through a zero page of the VMM's own making. *)
From Coq Require Import ZArith.
From Verif Require Import Base Base_proofs Io Mem SpecMem Mem_proofs Layout SpecFile File_proofs Text Cmdline SpecCmdline Text_proofs Cmdline_proofs
  Cmdline_proofs2 Cmdline_proofs3 Loader Elf SpecElf
  BzImage SpecBz Bz_proofs Pe SpecPe BootParams Configurators SpecBoot SpecAbi Layout_proofs Demo_elf SpecVmm Vmm_proofs
  Props_Cmdline Props_Loader Props_Elf Props_Bz Props_Config Props_Boot Props_Abi Props_Vmm Props_Boot_e2e SpecKernel Kernel_proofs Props_Kernel SpecDriver Props_Driver
  SpecGuest Props_Guest Props_GuestPvh Props_GuestCases.
Local Open Scope list_scope.

(** Any calls on separate areas in any order, among them loading an ELF kernel, writing a zero page (any page with a zero sentinel, any setup header, then
    the assignments) and writing the command line.  Linux has exactly that memory map, ramdisk and command line, and every segment not covered by a
    later one is in place. *)
Theorem C110_elf_boot : forall bld be ts m m2 xs off highmem r res page h z line c ram rd rd_size,
  wf_mem m = true -> Forall task_typed ts -> all_separate ts -> perform_all bld be ts m = (m2, xs) ->
  lenN page = 4096 -> uint_at page 0x1ef 1 = 0 -> lenN h = 123 ->
  map_typed ram -> 2 <= lenN ram <= 128 -> line < 2 ^ 64 -> rd < 2 ^ 64 -> rd_size < 2 ^ 64 ->
  reported ts xs (LoadElf off highmem r) (Loaded (Ok res)) ->
  reported ts xs (WriteLinux (bp_new (linux_page page h ram line rd rd_size) z)) (Written (Ok tt)) ->
  reported ts xs (LoadCmdline line c) (Done (Ok tt)) ->
  (forall pre a sg post, segs_of (rd_data r) off (phdrs_of (rd_data r)) = pre ++ (a, sg) :: post ->
     (forall s, In s post -> disjoint (a, sg) s) -> holds_at m2 a sg) /\
  exists s, as_cstring c = Ok s /\
    (lenN s < 2048 -> view_zero_page m2 z = Some (mkView ram (ramdisk_of 255 rd rd_size) (map n8 s))).
Proof.
  intros until rd_size. intros Hw Hts Hsep H Lp Sen Lh T Ln Hl Hrd Hrs Hel Hzp Hcl.
  assert (Hz : holds_at m2 z (linux_page page h ram line rd rd_size)).
  { apply (C58_all_in_place bld be _ m m2 _ (WriteLinux (bp_new (linux_page page h ram line rd rd_size) z)) (Written (Ok tt)) [] z _ [] Hw Hts Hsep H Hzp);
      [right; right; reflexivity|reflexivity|intros s []]. }
  split.
  - intros pre a sg post Es Hd.
    apply (C58_all_in_place bld be _ m m2 _ (LoadElf off highmem r) (Loaded (Ok res)) pre a sg post Hw Hts Hsep H Hel); [left; eauto|cbn [writes]; exact Es|exact Hd].
  - destruct (cmdline_call_string _ _ _ _ _ _ _ _ Hw Hts H Hcl) as (s & Es & Hs). exists s. split; [exact Es|].
    assert (Gs : guest_string m2 line s).
    { split; [|exact Hs].
      apply (C58_all_in_place bld be _ m m2 _ (LoadCmdline line c) (Done (Ok tt)) [] line (s ++ [x00]) [] Hw Hts Hsep H Hcl);
        [right; left; reflexivity|cbn [writes]; rewrite Es; reflexivity|intros q []]. }
    intros Ls. exact (page_view m2 z page h ram line rd rd_size s Lp Lh Sen T Ln Hl Hrd Hrs Hz Gs Ls).
Qed.

Theorem C110_linux_has : forall bld be ts m m2 xs off highmem r res page h z line ram rd rd_size cap c0 os ps is qs,
  wf_mem m = true -> Forall task_typed ts -> all_separate ts -> perform_all bld be ts m = (m2, xs) ->
  lenN page = 4096 -> uint_at page 0x1ef 1 = 0 -> lenN h = 123 ->
  map_typed ram -> 2 <= lenN ram <= 128 -> line < 2 ^ 64 -> rd < 2 ^ 64 -> rd_size < 2 ^ 64 ->
  cap <= 2048 -> cmdline_new cap = Ok c0 -> tells bld c0 os ps is (run_ops bld c0 os) -> adds bld c0 os qs (run_ops bld c0 os) ->
  Forall sensible qs -> ids_fit 0 qs ->
  reported ts xs (LoadElf off highmem r) (Loaded (Ok res)) ->
  reported ts xs (WriteLinux (bp_new (linux_page page h ram line rd rd_size) z)) (Written (Ok tt)) ->
  reported ts xs (LoadCmdline line (run_ops bld c0 os)) (Done (Ok tt)) ->
  exists v, view_zero_page m2 z = Some v /\ linux_has v ram (ramdisk_of 255 rd rd_size) ps is (expected 0 qs).
Proof.
  intros until qs. intros Hw Hts Hsep H Lp Sen Lh T Ln Hl Hrd Hrs Hc Ec Te Ad Hs Hf Hel Hzp Hcl.
  destruct (C110_elf_boot _ _ _ _ _ _ _ _ _ _ _ _ _ _ _ _ _ _ Hw Hts Hsep H Lp Sen Lh T Ln Hl Hrd Hrs Hel Hzp Hcl) as (_ & s & Es & V).
  assert (Hc64 : cap < 2 ^ 64) by (apply N.le_lt_trans with 2048; [exact Hc|reflexivity]).
  eexists. split; [exact (V (line_short _ _ _ _ _ Hc Ec Es))|]. unfold linux_has. cbn [memory_map ramdisk command_line].
  split; [reflexivity|]. split; [reflexivity|].
  split; [exact (C76_kernel_sees_inserted_new bld cap c0 os ps is _ s Hc64 Ec Te Es)|exact (C106_devices bld cap c0 os qs _ s Hc64 Ec Ad Es Hs Hf)].
Qed.

(** A header of the VMM's own: boot flag and magic. *)
Definition own_header : bytes := assign_all setup_header [([Fld "boot_flag"], 0xaa55); ([Fld "header"], 0x53726448)] (default_of setup_header).
Definition own_page : boot_info := bp_new (linux_page (default_of boot_params) own_header two_banks 0x9000 0x123456000 0x2000) 0x7000.
Definition own_tasks : list task := [WriteLinux own_page; LoadCmdline 0x9000 full_line; case_elf].
Definition own_m2 (be : backend) : gmem := fst (perform_all true be own_tasks demo_mem).
Lemma own_page_area x : touches (WriteLinux own_page) x -> 0x7000 <= x < 0x8000.
Proof.
  assert (L : lenN (header own_page) = 4096) by (vm_compute; reflexivity).
  intros Hx. unfold touches, in_range in Hx. rewrite L in Hx. change (header_start own_page) with 0x7000 in Hx. lia.
Qed.
Lemma own_separate : all_separate own_tasks.
Proof.
  apply FOP_cons; [apply Forall_cons; [|apply Forall_cons; [|apply Forall_nil]]|apply FOP_cons; [apply Forall_cons; [|apply Forall_nil]|apply FOP_cons; [apply Forall_nil|apply FOP_nil]]].
  + intros x H1 H2. apply own_page_area in H1. apply full_line_area in H2. lia.
  + intros x H1 H2. apply own_page_area in H1. apply demo_elf_area in H2. lia.
  + intros x H1 H2. apply full_line_area in H1. apply demo_elf_area in H2. lia.
Qed.
Lemma own_typed : Forall task_typed own_tasks.
Proof. unfold own_tasks. apply Forall_cons; [reflexivity|]. apply Forall_cons; [reflexivity|]. apply Forall_cons; [exact case_elf_typed|apply Forall_nil]. Qed.
Lemma own_runs be : perform_all true be own_tasks demo_mem = (own_m2 be, [Written (Ok tt); Done (Ok tt); Loaded (Ok elf_res)]).
Proof. unfold own_m2. destruct be; apply pair_up; vm_compute; reflexivity. Qed.
Example C110_applies : forall be, exists m2,
  all_separate own_tasks /\ Forall task_typed own_tasks /\
  perform_all true be own_tasks demo_mem = (m2, [Written (Ok tt); Done (Ok tt); Loaded (Ok elf_res)]) /\
  exists v, view_zero_page m2 0x7000 = Some v /\ linux_has v two_banks (Some (0x123456000, 0x2000)) line_params [txt "single"] line_devices.
Proof.
  intros be. exists (own_m2 be). split; [exact own_separate|]. split; [exact own_typed|]. split; [exact (own_runs be)|].
  destruct line_history as (Ec & Te & Ad & Hs & Hf & Hd). rewrite <- Hd.
  assert (Hw : wf_mem demo_mem = true) by (vm_compute; reflexivity).
  assert (Lp : lenN (default_of boot_params) = 4096) by (vm_compute; reflexivity).
  assert (Sen : uint_at (default_of boot_params) 0x1ef 1 = 0) by (vm_compute; reflexivity).
  assert (Lh : lenN own_header = 123) by (vm_compute; reflexivity).
  assert (Lr : 2 <= lenN two_banks <= 128) by (vm_compute; split; discriminate).
  assert (H9 : 0x9000 < 2 ^ 64) by reflexivity.
  assert (Hrd : 0x123456000 < 2 ^ 64) by reflexivity.
  assert (Hrs : 0x2000 < 2 ^ 64) by reflexivity.
  assert (Hcap : 200 <= 2048) by discriminate.
  assert (R0 : reported own_tasks [Written (Ok tt); Done (Ok tt); Loaded (Ok elf_res)] (WriteLinux own_page) (Written (Ok tt))) by (exists 0%nat; split; reflexivity).
  assert (R1 : reported own_tasks [Written (Ok tt); Done (Ok tt); Loaded (Ok elf_res)] (LoadCmdline 0x9000 full_line) (Done (Ok tt))) by (exists 1%nat; split; reflexivity).
  assert (R2 : reported own_tasks [Written (Ok tt); Done (Ok tt); Loaded (Ok elf_res)] (LoadElf None None (plain_reader demo_elf)) (Loaded (Ok elf_res)))
    by (exists 2%nat; split; reflexivity).
  assert (Er : ramdisk_of 255 0x123456000 0x2000 = Some (0x123456000, 0x2000)) by (vm_compute; reflexivity).
  pose proof (C110_linux_has true be own_tasks demo_mem (own_m2 be) _ None None (plain_reader demo_elf) elf_res (default_of boot_params) own_header 0x7000
    0x9000 two_banks 0x123456000 0x2000 200 new_line three_devices line_params [txt "single"] three_requests
    Hw own_typed own_separate (own_runs be) Lp Sen Lh two_banks_typed Lr H9 Hrd Hrs Hcap Ec Te Ad Hs Hf R2 R0 R1) as X.
  rewrite Er in X. exact X.
Qed.
