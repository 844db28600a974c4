(** * Props_GuestCases: boots that meet the hypotheses of C107 and C108, and what lies outside of them. *)
From Coq Require Import ZArith.
From Verif Require Import Base Base_proofs Io Mem SpecMem Mem_proofs Layout SpecFile File_proofs Text Cmdline SpecCmdline Text_proofs Cmdline_proofs
  Cmdline_proofs2 Cmdline_proofs3 Loader Elf SpecElf
  BzImage SpecBz Bz_proofs Pe SpecPe BootParams Configurators SpecBoot SpecAbi Layout_proofs Demo_elf SpecVmm Vmm_proofs
  Props_Cmdline Props_Loader Props_Elf Props_Bz Props_Config Props_Boot Props_Abi Props_Vmm Props_Boot_e2e SpecKernel Kernel_proofs Props_Kernel SpecDriver Props_Driver
  SpecGuest Props_Guest Props_GuestPvh.
Local Open Scope list_scope.

(** The command line of [C106_applies]. *)
Definition new_line : cmdline := mkCmdline [] [] 200.
Definition full_line : cmdline := run_ops true new_line three_devices.
Definition line_params : list param :=
  [(txt "virtio_mmio.device", Some (txt "4K@0xd0000000:5")); (txt "console", Some (txt "ttyS0"));
   (txt "virtio_mmio.device", Some (txt "1000@0xd0001000:6:7")); (txt "virtio_mmio.device", Some (txt "2M@0xd0200000:7"))].
Definition line_devices : list device :=
  [mkDevice 0xd0000000 0xd0000fff 5 0; mkDevice 0xd0001000 0xd00013e7 6 7; mkDevice 0xd0200000 0xd03fffff 7 8].
Lemma line_history : cmdline_new 200 = Ok new_line /\ tells true new_line three_devices line_params [txt "single"] full_line /\
  adds true new_line three_devices three_requests full_line /\ Forall sensible three_requests /\ ids_fit 0 three_requests /\
  expected 0 three_requests = line_devices.
Proof.
  assert (NI : forall (x : N) l, count_occ N.eq_dec l x = O -> ~ In x l) by (intros x l; apply count_occ_not_In).
  split; [reflexivity|]. split; [|split; [|split; [|split]]].
  - unfold full_line, three_devices, line_params.
    eapply (te_boot true _ _ _ [_]); [vm_compute; reflexivity|apply co_virtio; exact (device_argument_ok 4096 0xd0000000 5 None)|].
    eapply (te_boot true _ _ _ [_]); [vm_compute; reflexivity|apply co_insert; [discriminate|apply NI; reflexivity|constructor; apply NI; reflexivity]|].
    eapply te_rejected; [vm_compute; reflexivity|].
    eapply (te_boot true _ _ _ [_]); [vm_compute; reflexivity|apply co_virtio; exact (device_argument_ok 1000 0xd0001000 6 (Some 7))|].
    eapply te_init; [vm_compute; reflexivity|apply trimmed_iff; reflexivity|].
    eapply (te_boot true _ _ _ [_]); [vm_compute; reflexivity|apply co_virtio; exact (device_argument_ok (2 * 1024 * 1024) 0xd0200000 7 None)|].
    apply te_done.
  - unfold full_line, three_devices, three_requests.
    eapply ad_device; [vm_compute; reflexivity|].
    eapply ad_other; [vm_compute; reflexivity|apply co_insert; [discriminate|apply NI; reflexivity|constructor; apply NI; reflexivity]| |].
    { intros x [<-|[]]. discriminate. }
    eapply ad_rejected; [vm_compute; reflexivity|].
    eapply ad_device; [vm_compute; reflexivity|].
    eapply ad_init; [vm_compute; reflexivity|apply trim_spec|].
    eapply ad_device; [vm_compute; reflexivity|].
    apply ad_done.
  - unfold three_requests. repeat apply Forall_cons; try apply Forall_nil; cbn [sensible]; (split; [lia|]; split; [lia|]; split; [lia|]); try exact I. lia.
  - cbn [ids_fit three_requests]. lia.
  - vm_compute. reflexivity.
Qed.
Lemma full_line_area x : touches (LoadCmdline 0x9000 full_line) x -> 0x9000 <= x < 0x9100.
Proof. intros H. cbn [touches] in H. vm_compute as_cstring in H. unfold in_range, lenN in H. cbn in H. lia. Qed.

Definition two_banks : list (N * N * N) := [(0, 0x9fc00, 1); (0x100000, 0x7f00000, 1)].
Lemma two_banks_typed : map_typed two_banks.
Proof. intros a s t [H|[H|[]]]; injection H as <- <- <-; (split; [reflexivity|]; split; [reflexivity|]; split; [reflexivity|discriminate]). Qed.

(** ** C107 *)
Definition case_page (h : bytes) : boot_info := bp_new (linux_page (default_of boot_params) h two_banks 0x9000 0x123456000 0x2000) 0x7000.
Definition case_m2 (be : backend) : gmem := fst (perform_all true be [LoadCmdline 0x9000 full_line; WriteLinux (case_page boot_h)] (boot_m1 be)).
Lemma case_page_area x : touches (WriteLinux (case_page boot_h)) x -> 0x7000 <= x < 0x8000.
Proof.
  assert (L : lenN (header (case_page boot_h)) = 4096) by (vm_compute; reflexivity).
  intros Hx. unfold touches, in_range in Hx. rewrite L in Hx. change (header_start (case_page boot_h)) with 0x7000 in Hx. lia.
Qed.
Definition case_tasks : list task := [LoadCmdline 0x9000 full_line; WriteLinux (case_page boot_h)].
Lemma case_separate : all_separate (boot_bz :: case_tasks).
Proof.
  apply FOP_cons; [apply Forall_cons; [|apply Forall_cons; [|apply Forall_nil]]|apply FOP_cons; [apply Forall_cons; [|apply Forall_nil]|apply FOP_cons; [apply Forall_nil|apply FOP_nil]]].
  + intros x H1 H2. apply boot_bz_area in H1. apply full_line_area in H2. lia.
  + intros x H1 H2. apply boot_bz_area in H1. apply case_page_area in H2. lia.
  + intros x H1 H2. apply full_line_area in H1. apply case_page_area in H2. lia.
Qed.
Lemma case_typed : Forall task_typed case_tasks.
Proof. unfold case_tasks. apply Forall_cons; [reflexivity|apply Forall_cons; [reflexivity|apply Forall_nil]]. Qed.
Lemma boot_typed : task_typed boot_bz.
Proof. split; [apply plain_wf; reflexivity|]. split; [vm_compute; discriminate|]. intros a Ea. inversion Ea. reflexivity. Qed.
Lemma boot_loads be : perform true be boot_bz demo_mem = (boot_m1 be, Loaded (Ok boot_res)).
Proof. unfold boot_m1. destruct be; apply pair_up; vm_compute; reflexivity. Qed.
Lemma boot_header : result_header boot_res = Some boot_h.
Proof. vm_compute. reflexivity. Qed.
Lemma case_runs be : perform_all true be case_tasks (boot_m1 be) = (case_m2 be, [Done (Ok tt); Written (Ok tt)]).
Proof. unfold case_m2. destruct be; apply pair_up; vm_compute; reflexivity. Qed.
Lemma case_reported : reported case_tasks [Done (Ok tt); Written (Ok tt)] (LoadCmdline 0x9000 full_line) (Done (Ok tt)) /\
  reported case_tasks [Done (Ok tt); Written (Ok tt)] (WriteLinux (case_page boot_h)) (Written (Ok tt)).
Proof. split; [exists 0%nat|exists 1%nat]; split; reflexivity. Qed.
Example C107_applies : forall be, exists m1 res h m2,
  perform true be boot_bz demo_mem = (m1, Loaded (Ok res)) /\ task_typed boot_bz /\ result_header res = Some h /\
  lenN (default_of boot_params) = 4096 /\ uint_at (default_of boot_params) 0x1ef 1 = 0 /\ map_typed two_banks /\ 2 <= lenN two_banks <= 128 /\
  let ts := [LoadCmdline 0x9000 full_line; WriteLinux (case_page h)] in
  all_separate (boot_bz :: ts) /\ Forall task_typed ts /\
  perform_all true be ts m1 = (m2, [Done (Ok tt); Written (Ok tt)]) /\
  exists v, view_zero_page m2 0x7000 = Some v /\ linux_has v two_banks (Some (0x123456000, 0x2000)) line_params [txt "single"] line_devices.
Proof.
  intros be. exists (boot_m1 be), boot_res, boot_h, (case_m2 be).
  split; [exact (boot_loads be)|]. split; [exact boot_typed|]. split; [exact boot_header|]. split; [vm_compute; reflexivity|]. split; [vm_compute; reflexivity|].
  split; [exact two_banks_typed|]. split; [vm_compute; split; discriminate|]. cbv zeta. split; [exact case_separate|]. split; [exact case_typed|]. split; [exact (case_runs be)|].
  destruct line_history as (Ec & Te & Ad & Hs & Hf & Hd). rewrite <- Hd. destruct case_reported as [Rc Rz].
  assert (Hw : wf_mem demo_mem = true) by (vm_compute; reflexivity).
  assert (Lp : lenN (default_of boot_params) = 4096) by (vm_compute; reflexivity).
  assert (Sen : uint_at (default_of boot_params) 0x1ef 1 = 0) by (vm_compute; reflexivity).
  assert (Lr : 2 <= lenN two_banks <= 128) by (vm_compute; split; discriminate).
  assert (H9 : 0x9000 < 2 ^ 64) by reflexivity.
  assert (Hrd : 0x123456000 < 2 ^ 64) by reflexivity.
  assert (Hrs : 0x2000 < 2 ^ 64) by reflexivity.
  assert (Hcap : 200 <= 2048) by discriminate.
  assert (Er : ramdisk_of 255 0x123456000 0x2000 = Some (0x123456000, 0x2000)) by (vm_compute; reflexivity).
  pose proof (C107_linux_has true be (Some 0x4000) None (plain_reader demo_bz) demo_mem (boot_m1 be) boot_res boot_h (default_of boot_params) 0x7000
    case_tasks (case_m2 be) [Done (Ok tt); Written (Ok tt)] 0x9000 two_banks 0x123456000 0x2000 200 new_line three_devices
    line_params [txt "single"] three_requests Hw boot_typed (boot_loads be) boot_header Lp Sen two_banks_typed Lr H9 Hrd Hrs Hcap Ec Te Ad Hs Hf
    case_typed case_separate (case_runs be) Rz Rc) as X.
  rewrite Er in X. exact X.
Qed.
(** A memory map with a single entry is written like any other, and Linux does not use it; nor one that passes the end of the address space.
    A page whose sentinel is not zero loses the upper halves of addresses. *)
Definition page_bytes (sentinel : N) (ram : list (N * N * N)) (rd : N) : bytes :=
  linux_page (set boot_params [Fld "sentinel"] sentinel (default_of boot_params)) boot_h ram 0x9000 rd 16.
Definition view_after (page : bytes) : option linux_view :=
  match linux_write_bootparams TryAccess (bp_new page 0x7000) demo_mem with (m', Ok _) => view_zero_page m' 0x7000 | _ => None end.
Definition map_and_disk (v : option linux_view) := match v with Some v => Some (memory_map v, ramdisk v) | None => None end.
Example C107_one_bank : view_after (page_bytes 0 [(0, 0x8000000, 1)] 0) = None.
Proof. vm_compute. reflexivity. Qed.
Example C107_past_the_end : view_after (page_bytes 0 [(0, 0x9fc00, 1); (2 ^ 64 - 0x1000, 0x2000, 1)] 0) = None.
Proof. vm_compute. reflexivity. Qed.
Example C107_sentinel : map_and_disk (view_after (page_bytes 0 two_banks 0x100002000)) = Some (two_banks, Some (0x100002000, 16)) /\
  map_and_disk (view_after (page_bytes 1 two_banks 0x100002000)) = Some (two_banks, Some (0x2000, 16)).
Proof. vm_compute. split; reflexivity. Qed.

(** ** C108 *)
Definition two_modules : list (N * N) := [(0x6000, 16); (0x6100, 32)].
Definition case_params : boot_info :=
  set_modules (set_sections (bp_new (start_info_page 0x7100 (lenN two_banks) 0x7200 (lenN two_modules) 0x9000) 0x7000) (map memmap_entry two_banks) 0x7100)
    (map modlist_entry two_modules) 0x7200.
Definition case_elf : task := LoadElf None None (plain_reader demo_elf).
Definition elf_m1 (be : backend) : gmem := fst (perform true be case_elf demo_mem).
Definition elf_res : load_result :=
  match snd (perform true TryAccess case_elf demo_mem) with Loaded (Ok res) => res | _ => mkResult 0 0 None PvhEntryIgnored end.
Definition elf_m2 (be : backend) : gmem := fst (perform_all true be [WritePvh case_params; LoadCmdline 0x9000 full_line] (elf_m1 be)).
Definition elf_tasks : list task := [WritePvh case_params; LoadCmdline 0x9000 full_line].
Lemma case_areas : map (fun s => (fst s, lenN (snd s))) (pvh_areas case_params) = [(0x7100, 48); (0x7000, 56); (0x7200, 64)].
Proof. vm_compute. reflexivity. Qed.
Lemma case_params_area x : touches (WritePvh case_params) x -> 0x7000 <= x < 0x7300.
Proof.
  intros (s & Hs & Hr). apply (in_map (fun s => (fst s, lenN (snd s)))) in Hs. rewrite case_areas in Hs. unfold in_range in Hr.
  destruct s as [b v]. cbn [fst snd] in *.
  destruct Hs as [H|[H|[H|[]]]]; injection H as <- H2; rewrite <- H2 in Hr; lia.
Qed.
Lemma elf_separate : all_separate (case_elf :: elf_tasks).
Proof.
  apply FOP_cons; [apply Forall_cons; [|apply Forall_cons; [|apply Forall_nil]]|apply FOP_cons; [apply Forall_cons; [|apply Forall_nil]|apply FOP_cons; [apply Forall_nil|apply FOP_nil]]].
  + intros x H1 H2. apply demo_elf_area in H1. apply case_params_area in H2. lia.
  + intros x H1 H2. apply demo_elf_area in H1. apply full_line_area in H2. lia.
  + intros x H1 H2. apply case_params_area in H1. apply full_line_area in H2. lia.
Qed.
Lemma case_disjoint : ForallOrdPairs disjoint (pvh_areas case_params).
Proof.
  pose proof case_areas as A. destruct (pvh_areas case_params) as [|[a u] [|[b v] [|[c w] [|]]]]; try discriminate A.
  cbn [map fst snd] in A. injection A as -> Hu -> Hv -> Hw'.
  assert (D : forall a u b v, a + lenN u <= b \/ b + lenN v <= a -> disjoint (a, u) (b, v)).
  { intros a' u' b' v' H x [H1 H2] [H3 H4]. cbn [fst snd] in *. lia. }
  apply FOP_cons; [apply Forall_cons; [|apply Forall_cons; [|apply Forall_nil]]|apply FOP_cons; [apply Forall_cons; [|apply Forall_nil]|apply FOP_cons; [apply Forall_nil|apply FOP_nil]]];
    apply D; rewrite ?Hu, ?Hv, ?Hw'; lia.
Qed.
Lemma elf_typed : Forall task_typed elf_tasks.
Proof.
  unfold elf_tasks. apply Forall_cons; [|apply Forall_cons; [reflexivity|apply Forall_nil]].
  unfold task_typed. vm_compute. repeat split.
Qed.
Lemma elf_loads be : perform true be case_elf demo_mem = (elf_m1 be, Loaded (Ok elf_res)).
Proof. unfold elf_m1. destruct be; apply pair_up; vm_compute; reflexivity. Qed.
Lemma case_elf_typed : task_typed case_elf.
Proof. apply plain_wf; reflexivity. Qed.
Lemma elf_runs be : perform_all true be elf_tasks (elf_m1 be) = (elf_m2 be, [Written (Ok tt); Done (Ok tt)]).
Proof. unfold elf_m2. destruct be; apply pair_up; vm_compute; reflexivity. Qed.
Lemma elf_reported : reported elf_tasks [Written (Ok tt); Done (Ok tt)] (WritePvh case_params) (Written (Ok tt)) /\
  reported elf_tasks [Written (Ok tt); Done (Ok tt)] (LoadCmdline 0x9000 full_line) (Done (Ok tt)).
Proof. split; [exists 0%nat|exists 1%nat]; split; reflexivity. Qed.
Example C108_applies : forall be, exists m1 res m2,
  let ts := [WritePvh case_params; LoadCmdline 0x9000 full_line] in
  perform true be case_elf demo_mem = (m1, Loaded (Ok res)) /\ task_typed case_elf /\
  all_separate (case_elf :: ts) /\ Forall task_typed ts /\ ForallOrdPairs disjoint (pvh_areas case_params) /\
  map_typed two_banks /\ mods_typed two_modules /\
  perform_all true be ts m1 = (m2, [Written (Ok tt); Done (Ok tt)]) /\
  exists v, view_start_info m2 0x7000 = Some v /\
    linux_has v (two_banks ++ [(0xa0000, 0x60000, 2)]) (Some (0x6000, 16)) line_params [txt "single"] line_devices.
Proof.
  intros be. exists (elf_m1 be), elf_res, (elf_m2 be). cbv zeta.
  assert (Tm : mods_typed two_modules) by (intros a s [H|[H|[]]]; injection H as <- <-; split; reflexivity).
  split; [exact (elf_loads be)|]. split; [exact case_elf_typed|]. split; [exact elf_separate|]. split; [exact elf_typed|]. split; [exact case_disjoint|].
  split; [exact two_banks_typed|]. split; [exact Tm|]. split; [exact (elf_runs be)|].
  destruct line_history as (Ec & Tel & Ad & Hs & Hf & Hd). rewrite <- Hd. destruct elf_reported as [Rp Rc].
  assert (Hw : wf_mem demo_mem = true) by (vm_compute; reflexivity).
  assert (Hh : header case_params = start_info_page 0x7100 (lenN two_banks) 0x7200 (lenN two_modules) 0x9000) by (vm_compute; reflexivity).
  assert (S1 : sections case_params = Some (concat (map memmap_entry two_banks))) by (vm_compute; reflexivity).
  assert (S2 : sections_start case_params = Some 0x7100) by (vm_compute; reflexivity).
  assert (Hmod : two_modules <> [] -> modules case_params = Some (concat (map modlist_entry two_modules)) /\ modules_start case_params = Some 0x7200)
    by (intros _; vm_compute; split; reflexivity).
  assert (Lr : 1 <= lenN two_banks <= 128) by (vm_compute; split; discriminate).
  assert (Lm : lenN two_modules < 2 ^ 32) by reflexivity.
  assert (H1 : 0x7100 < 2 ^ 64) by reflexivity.
  assert (H2 : 0x7200 < 2 ^ 64) by reflexivity.
  assert (H9 : 0x9000 < 2 ^ 32) by reflexivity.
  assert (Hcap : 200 <= 2048) by discriminate.
  assert (Er : first_module two_modules = Some (0x6000, 16)) by (vm_compute; reflexivity).
  assert (Ei : isa_room (lenN two_banks) = [(0xa0000, 0x60000, 2)]) by (vm_compute; reflexivity).
  pose proof (C108_linux_has true be None None (plain_reader demo_elf) demo_mem (elf_m1 be) elf_res
    elf_tasks (elf_m2 be) [Written (Ok tt); Done (Ok tt)] case_params 0x7100 0x7200 0x9000 two_banks two_modules 200 new_line three_devices
    line_params [txt "single"] three_requests Hw case_elf_typed (elf_loads be) Hh S1 S2 Hmod two_banks_typed Lr Tm Lm H1 H2 H9 Hcap Ec Tel Ad Hs Hf
    elf_typed elf_separate (elf_runs be) case_disjoint Rp Rc) as X.
  rewrite Er, Ei in X. exact X.
Qed.
