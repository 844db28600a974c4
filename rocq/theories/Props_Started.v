(** * Props_Started: what Linux finds once it has started and used its own memory as it likes (C118).

    Vocabulary: SpecSpace.v ([takes], [started]), SpecGuest.v and SpecDtb.v (the kernel's views), SpecVmm.v (calls). *)
From Coq Require Import ZArith.
From Verif Require Import Base Base_proofs Io Mem SpecMem Mem_proofs Layout SpecFile File_proofs Text Cmdline SpecCmdline Text_proofs Cmdline_proofs
  Cmdline_proofs2 Cmdline_proofs3 Loader Elf SpecElf
  BzImage SpecBz Bz_proofs Pe SpecPe Pe_proofs BootParams Configurators SpecBoot SpecAbi Layout_proofs Demo_elf SpecVmm Vmm_proofs
  Props_Cmdline Props_Loader Props_Elf Props_Bz Props_Pe Props_Config Props_Boot Props_Abi Props_Vmm Props_Boot_e2e Props_Place SpecKernel Kernel_proofs Props_Kernel
  SpecDriver Props_Driver SpecGuest Props_Guest Props_GuestPvh Props_GuestCases Props_GuestElf SpecSpace Props_Space SpecDtb Dtb_proofs Dtb_proofs2 Props_Dtb.
Local Open Scope list_scope.

(** The calls [ts] keep off the memory the kernel takes. *)
Definition clear_of (t : task) (res : load_result) (ts : list task) : Prop := forall v y, In v ts -> touches v y -> ~ takes t res y.

(** Two ways to be clear of the kernel: calls off the memory it takes, or calls at or above the reported end if the end says it all. *)
Theorem C118_above : forall bld be t m m1 res ts,
  wf_mem m = true -> task_typed t -> perform bld be t m = (m1, Loaded (Ok res)) -> honest t -> end_says_it_all t res ->
  all_separate ts -> (forall v y, In v ts -> touches v y -> kernel_end res <= y) -> all_separate (t :: ts) /\ clear_of t res ts.
Proof.
  intros bld be t m m1 res ts Hw Ht H Hh He Hsep Hafter. destruct (C69_below_kernel_end _ _ _ _ _ _ Hw Ht H Hh) as (Hin & _). split.
  - apply FOP_cons; [|exact Hsep]. apply Forall_forall. intros v Hv y Hy Hty. destruct (Hin y Hy) as [Hlt _]. specialize (Hafter v y Hv Hty). lia.
  - intros v y Hv Hy Htk. specialize (Hafter v y Hv Hy). specialize (He y Htk). lia.
Qed.

Lemma string_survives bld be t m m1 res ts m2 xs m3 addr c : wf_mem m = true -> task_typed t -> perform bld be t m = (m1, Loaded (Ok res)) ->
  Forall task_typed ts -> all_separate (t :: ts) -> perform_all bld be ts m1 = (m2, xs) -> clear_of t res ts -> started t res m2 m3 ->
  reported ts xs (LoadCmdline addr c) (Done (Ok tt)) -> exists s, as_cstring c = Ok s /\ guest_string m3 addr s.
Proof.
  intros Hw Ht E Hts Hsep H Hoff Hst Hcl. pose proof (loaded_wf _ _ _ _ _ _ Hw Ht E) as Hw1.
  destruct (cmdline_call_string _ _ _ _ _ _ _ _ Hw1 Hts H Hcl) as (s & Es & Hs). exists s. split; [exact Es|]. split; [|exact Hs].
  apply (C111_survives bld be t m m1 res ts m2 xs m3 (LoadCmdline addr c) (Done (Ok tt)) [] addr (s ++ [x00]) [] Hw Ht E Hts Hsep H Hoff Hst Hcl);
    [right; left; reflexivity|cbn [writes]; rewrite Es; reflexivity|intros q []].
Qed.
Lemma page_survives bld be t m m1 res ts m2 xs m3 p : wf_mem m = true -> task_typed t -> perform bld be t m = (m1, Loaded (Ok res)) ->
  Forall task_typed ts -> all_separate (t :: ts) -> perform_all bld be ts m1 = (m2, xs) -> clear_of t res ts -> started t res m2 m3 ->
  reported ts xs (WriteLinux p) (Written (Ok tt)) -> holds_at m3 (header_start p) (header p).
Proof.
  intros Hw Ht E Hts Hsep H Hoff Hst Hzp.
  apply (C111_survives bld be t m m1 res ts m2 xs m3 (WriteLinux p) (Written (Ok tt)) [] _ _ [] Hw Ht E Hts Hsep H Hoff Hst Hzp);
    [right; right; reflexivity|reflexivity|intros s []].
Qed.
Lemma has_all bld cap c0 os ps is qs s ram rd : cap < 2 ^ 64 -> cmdline_new cap = Ok c0 -> tells bld c0 os ps is (run_ops bld c0 os) ->
  adds bld c0 os qs (run_ops bld c0 os) -> Forall sensible qs -> ids_fit 0 qs -> as_cstring (run_ops bld c0 os) = Ok s ->
  linux_has (mkView ram rd (map n8 s)) ram rd ps is (expected 0 qs).
Proof.
  intros Hc64 Ec Te Ad Hs Hf Es. unfold linux_has. cbn [memory_map ramdisk command_line]. split; [reflexivity|]. split; [reflexivity|].
  split; [exact (C76_kernel_sees_inserted_new bld cap c0 os ps is _ s Hc64 Ec Te Es)|exact (C106_devices bld cap c0 os qs _ s Hc64 Ec Ad Es Hs Hf)].
Qed.

(** A kernel (bzImage or ELF) started through a zero page, whose setup header is that of the image or any other. *)
Theorem C118_zero_page : forall bld be t m m1 res h page z ts m2 xs m3 line ram rd rd_size cap c0 os ps is qs,
  wf_mem m = true -> task_typed t -> perform bld be t m = (m1, Loaded (Ok res)) ->
  lenN page = 4096 -> uint_at page 0x1ef 1 = 0 -> lenN h = 123 ->
  map_typed ram -> 2 <= lenN ram <= 128 -> line < 2 ^ 64 -> rd < 2 ^ 64 -> rd_size < 2 ^ 64 ->
  cap <= 2048 -> cmdline_new cap = Ok c0 -> tells bld c0 os ps is (run_ops bld c0 os) -> adds bld c0 os qs (run_ops bld c0 os) ->
  Forall sensible qs -> ids_fit 0 qs ->
  Forall task_typed ts -> all_separate (t :: ts) -> perform_all bld be ts m1 = (m2, xs) ->
  reported ts xs (WriteLinux (bp_new (linux_page page h ram line rd rd_size) z)) (Written (Ok tt)) ->
  reported ts xs (LoadCmdline line (run_ops bld c0 os)) (Done (Ok tt)) ->
  clear_of t res ts -> started t res m2 m3 ->
  exists v, view_zero_page m3 z = Some v /\ linux_has v ram (ramdisk_of 255 rd rd_size) ps is (expected 0 qs).
Proof.
  intros until qs. intros Hw Ht E Lp Sen Lh T Ln Hl Hrd Hrs Hc Ec Te Ad Hs Hf Hts Hsep H Hzp Hcl Hoff Hst.
  pose proof (page_survives _ _ _ _ _ _ _ _ _ _ _ Hw Ht E Hts Hsep H Hoff Hst Hzp) as Hz.
  destruct (string_survives _ _ _ _ _ _ _ _ _ _ _ _ Hw Ht E Hts Hsep H Hoff Hst Hcl) as (s & Es & Gs).
  exists (mkView ram (ramdisk_of 255 rd rd_size) (map n8 s)).
  split; [exact (page_view m3 z page h ram line rd rd_size s Lp Lh Sen T Ln Hl Hrd Hrs Hz Gs (line_short _ _ _ _ _ Hc Ec Es))|].
  apply (has_all bld cap c0 os); try assumption. apply N.le_lt_trans with 2048; [exact Hc|reflexivity].
Qed.

(** An ELF kernel started through PVH. *)
Theorem C118_pvh : forall bld be t m m1 res ts m2 xs m3 p ram_at mods_at line ram mods cap c0 os ps is qs,
  wf_mem m = true -> task_typed t -> perform bld be t m = (m1, Loaded (Ok res)) ->
  header p = start_info_page ram_at (lenN ram) mods_at (lenN mods) line ->
  sections p = Some (concat (map memmap_entry ram)) -> sections_start p = Some ram_at ->
  (mods <> [] -> modules p = Some (concat (map modlist_entry mods)) /\ modules_start p = Some mods_at) ->
  map_typed ram -> 1 <= lenN ram <= 128 -> mods_typed mods -> lenN mods < 2 ^ 32 -> ram_at < 2 ^ 64 -> mods_at < 2 ^ 64 -> line < 2 ^ 32 ->
  cap <= 2048 -> cmdline_new cap = Ok c0 -> tells bld c0 os ps is (run_ops bld c0 os) -> adds bld c0 os qs (run_ops bld c0 os) ->
  Forall sensible qs -> ids_fit 0 qs ->
  Forall task_typed ts -> all_separate (t :: ts) -> perform_all bld be ts m1 = (m2, xs) -> ForallOrdPairs disjoint (pvh_areas p) ->
  reported ts xs (WritePvh p) (Written (Ok tt)) -> reported ts xs (LoadCmdline line (run_ops bld c0 os)) (Done (Ok tt)) ->
  clear_of t res ts -> started t res m2 m3 ->
  exists v, view_start_info m3 (header_start p) = Some v /\ linux_has v (ram ++ isa_room (lenN ram)) (first_module mods) ps is (expected 0 qs).
Proof.
  intros until qs. intros Hw Ht E Hh S1 S2 Hmod T Ln Tm Lm Hr Hma Hl Hc Ec Te Ad Hs Hf Hts Hsep H Hdis Hpv Hcl Hoff Hst.
  assert (Harea : forall a v, In (a, v) (pvh_areas p) -> holds_at m3 a v).
  { intros a v Hin. apply in_split in Hin as (pre & post & Ep).
    apply (C111_survives bld be t m m1 res ts m2 xs m3 (WritePvh p) (Written (Ok tt)) pre a v post Hw Ht E Hts Hsep H Hoff Hst Hpv);
      [right; right; reflexivity|exact Ep|].
    rewrite Ep in Hdis. apply FOP_app_inv in Hdis. rewrite Forall_forall in Hdis. exact Hdis. }
  destruct (string_survives _ _ _ _ _ _ _ _ _ _ _ _ Hw Ht E Hts Hsep H Hoff Hst Hcl) as (s & Es & Gs).
  exists (mkView (ram ++ isa_room (lenN ram)) (first_module mods) (map n8 s)). split.
  - apply (start_info_view m3 (header_start p) ram_at mods_at line ram mods s T Ln Tm Lm Hr Hma Hl); [| | |exact Gs|exact (line_short _ _ _ _ _ Hc Ec Es)].
    + rewrite <- Hh. apply Harea. unfold pvh_areas. apply in_or_app. right. left. reflexivity.
    + apply Harea. unfold pvh_areas. rewrite S1, S2. left. reflexivity.
    + destruct mods as [|e mods]; [intros i b Hi; destruct (N.to_nat i); discriminate|]. destruct Hmod as [M1 M2]; [discriminate|].
      apply Harea. unfold pvh_areas. rewrite M1, M2. apply in_or_app. right. right. left. reflexivity.
  - apply (has_all bld cap c0 os); try assumption. apply N.le_lt_trans with 2048; [exact Hc|reflexivity].
Qed.

(** An Image started with a device tree. *)
Theorem C118_device_tree : forall bld be a t m m1 res ts m2 xs m3 f z more before after rd cm mn ram cap c0 os ps is qs s,
  wf_mem m = true -> task_typed t -> perform bld be t m = (m1, Loaded (Ok res)) ->
  Forall task_typed ts -> all_separate (t :: ts) -> perform_all bld be ts m1 = (m2, xs) ->
  (reported ts xs (WriteFdt (bp_new f z)) (Written (Ok tt)) \/ exists im, rd_data im = f /\ reported ts xs (LoadDtb z im) (Done (Ok tt))) ->
  cap <= line_limit a -> cmdline_new cap = Ok c0 -> tells bld c0 os ps is (run_ops bld c0 os) -> adds bld c0 os qs (run_ops bld c0 os) ->
  Forall sensible qs -> ids_fit 0 qs -> as_cstring (run_ops bld c0 os) = Ok s ->
  blob f (machine more before after s rd cm mn ram) -> z mod 8 = 0 -> field f 4 <= 2 ^ 21 ->
  machine_typed before after rd cm mn ram ->
  clear_of t res ts -> started t res m2 m3 ->
  exists v, view_dtb (line_limit a) m3 z = Some v /\ linux_has v (map (fun p => (fst p, snd p, 1)) ram) rd ps is (expected 0 qs).
Proof.
  intros until s. intros Hw Ht E Hts Hsep H Hrep Hc Ec Te Ad Hs Hf Es Hb Hz Hsz T Hoff Hst.
  assert (Hc64 : cap < 2 ^ 64) by (apply N.le_lt_trans with (line_limit a); [exact Hc|destruct a; reflexivity]).
  assert (V : cmdline_to_vec (run_ops bld c0 os) = Ok (s ++ [x00])) by (unfold cmdline_to_vec; rewrite Es; reflexivity).
  assert (Hl0 : ~ In x00 s).
  { destruct (C08_one_nul _ _ V) as (b & Eb & Hb0). apply app_inj_tail in Eb. destruct Eb as (-> & _). exact Hb0. }
  assert (Hl : lenN s < line_limit a).
  { assert (Tk : ctor_typed (New cap)) by exact Hc64.
    pose proof (capacity_respected bld (New cap) c0 os (s ++ [x00]) Tk Ec V) as X. rewrite lenN_app in X. change (lenN [x00]) with 1 in X. cbn [ctor_cap] in X. lia. }
  assert (Hm : holds_at m3 z f).
  { destruct Hrep as [R|(im & <- & R)].
    - apply (C111_survives bld be t m m1 res ts m2 xs m3 (WriteFdt (bp_new f z)) (Written (Ok tt)) [] z f [] Hw Ht E Hts Hsep H Hoff Hst R);
        [right; right; reflexivity|reflexivity|intros q []].
    - apply (C111_survives bld be t m m1 res ts m2 xs m3 (LoadDtb z im) (Done (Ok tt)) [] z (rd_data im) [] Hw Ht E Hts Hsep H Hoff Hst R);
        [right; left; reflexivity|reflexivity|intros q []]. }
  exists (mkView (map (fun p => (fst p, snd p, 1)) ram) rd (map n8 s)). split.
  - unfold view_dtb. rewrite (tree_at_blob _ _ _ _ Hm Hb Hz Hsz). f_equal. apply view_machine; assumption.
  - apply (has_all bld cap c0 os); assumption.
Qed.

(** ** Cases *)
(** The kernel has put 0xee wherever [P]. *)
Definition wreck (P : N -> bool) (m : gmem) : gmem := mkMem (regions m) (fun x => if P x then xee else gm_byte m x).
Lemma wreck_started P t res m : (forall x, P x = true -> takes t res x) -> started t res m (wreck P m).
Proof.
  intros H. split; [reflexivity|]. intros x Hx. change (gm_byte (wreck P m) x) with (if P x then xee else gm_byte m x).
  destruct (P x) eqn:E; [exfalso; apply Hx; right; exact (H x E)|reflexivity].
Qed.
Definition within (a n x : N) : bool := (a <=? x) && (x <? a + n).
Lemma within_range a n x : within a n x = true -> in_range a n x.
Proof. unfold within, in_range. rewrite Bool.andb_true_iff, N.leb_le, N.ltb_lt. tauto. Qed.

(** *** A bzImage of 8 bytes that runs in 256 bytes, with a zero page and a command line. *)
Definition hungry : task := LoadBz (Some 0x4000) None (plain_reader (hungry_bz 0x100)).
Definition hungry_res : load_result :=
  match snd (perform true TryAccess hungry demo_mem) with Loaded (Ok res) => res | _ => mkResult 0 0 None PvhEntryIgnored end.
Definition hungry_h : bytes := match result_header hungry_res with Some h => h | None => [] end.
Definition hungry_m1 (be : backend) : gmem := fst (perform true be hungry demo_mem).
Definition hungry_tasks : list task := [LoadCmdline 0x9000 full_line; WriteLinux (case_page hungry_h)].
Definition hungry_m2 (be : backend) : gmem := fst (perform_all true be hungry_tasks (hungry_m1 be)).
Lemma hungry_takes x : takes hungry hungry_res x <-> in_range 0x4000 0x100 x.
Proof.
  unfold hungry. cbn [takes]. change (rd_data (plain_reader (hungry_bz 0x100))) with (hungry_bz 0x100).
  replace (0x20a <=? bz_version (hungry_bz 0x100)) with true by (vm_compute; reflexivity).
  replace (kernel_load hungry_res) with 0x4000 by (vm_compute; reflexivity).
  replace (bz_init_size (hungry_bz 0x100)) with 0x100 by (vm_compute; reflexivity).
  assert (R : runs_at (hungry_bz 0x100) 0x4000 0x4000).
  { unfold runs_at. replace (bz_relocatable (hungry_bz 0x100)) with true by (vm_compute; reflexivity).
    replace (bz_alignment (hungry_bz 0x100)) with 0x1000 by (vm_compute; reflexivity).
    replace (bz_pref_address (hungry_bz 0x100)) with 0x3800 by (vm_compute; reflexivity).
    unfold aligned_start. cbn. split; [exists 4; reflexivity|split; vm_compute; congruence]. }
  split; [intros (l & Hl & Hx); rewrite (runs_at_unique _ _ _ _ Hl R) in Hx; exact Hx|intros Hx; exists 0x4000; split; [exact R|exact Hx]].
Qed.
Lemma hungry_area x : touches hungry x -> 0x4000 <= x < 0x4008.
Proof.
  intros (k & [ -> |Hs] & Hr); [|exfalso; refine (quiet_plain (hungry_bz 0x100) _ (or_intror Hs)); reflexivity].
  unfold in_range in Hr.
  change (bz_load_addr (SpecBz.seen (rd_data (plain_reader (hungry_bz 0x100))) 123) (Some 0x4000)) with 0x4000 in Hr.
  assert (El : lenN (payload (rd_data (plain_reader (hungry_bz 0x100)))) = 8) by (vm_compute; reflexivity). rewrite El in Hr. lia.
Qed.
Lemma hungry_page_area x : touches (WriteLinux (case_page hungry_h)) x -> 0x7000 <= x < 0x8000.
Proof.
  assert (L : lenN (header (case_page hungry_h)) = 4096) by (vm_compute; reflexivity).
  intros Hx. unfold touches, in_range in Hx. rewrite L in Hx. change (header_start (case_page hungry_h)) with 0x7000 in Hx. lia.
Qed.
Lemma hungry_separate : all_separate (hungry :: hungry_tasks).
Proof.
  apply FOP_cons; [apply Forall_cons; [|apply Forall_cons; [|apply Forall_nil]]|apply FOP_cons; [apply Forall_cons; [|apply Forall_nil]|apply FOP_cons; [apply Forall_nil|apply FOP_nil]]].
  + intros x H1 H2. apply hungry_area in H1. apply full_line_area in H2. lia.
  + intros x H1 H2. apply hungry_area in H1. apply hungry_page_area in H2. lia.
  + intros x H1 H2. apply full_line_area in H1. apply hungry_page_area in H2. lia.
Qed.
Lemma hungry_clear : clear_of hungry hungry_res hungry_tasks.
Proof.
  intros v y [<-|[<-|[]]] Hy Ht; apply hungry_takes in Ht; unfold in_range in Ht;
    [apply full_line_area in Hy|apply hungry_page_area in Hy]; lia.
Qed.
Lemma hungry_typed : task_typed hungry.
Proof. split; [apply plain_wf; reflexivity|]. split; [vm_compute; discriminate|]. intros a Ea. inversion Ea. reflexivity. Qed.
Lemma hungry_tasks_typed : Forall task_typed hungry_tasks.
Proof. unfold hungry_tasks. apply Forall_cons; [reflexivity|apply Forall_cons; [reflexivity|apply Forall_nil]]. Qed.
Lemma hungry_loads be : perform true be hungry demo_mem = (hungry_m1 be, Loaded (Ok hungry_res)).
Proof. unfold hungry_m1. destruct be; apply pair_up; vm_compute; reflexivity. Qed.
Lemma hungry_runs be : perform_all true be hungry_tasks (hungry_m1 be) = (hungry_m2 be, [Done (Ok tt); Written (Ok tt)]).
Proof. unfold hungry_m2. destruct be; apply pair_up; vm_compute; reflexivity. Qed.
Lemma hungry_reported : reported hungry_tasks [Done (Ok tt); Written (Ok tt)] (LoadCmdline 0x9000 full_line) (Done (Ok tt)) /\
  reported hungry_tasks [Done (Ok tt); Written (Ok tt)] (WriteLinux (case_page hungry_h)) (Written (Ok tt)).
Proof. split; [exists 0%nat|exists 1%nat]; split; reflexivity. Qed.
Lemma hungry_sees be m3 : started hungry hungry_res (hungry_m2 be) m3 ->
  exists v, view_zero_page m3 0x7000 = Some v /\ linux_has v two_banks (Some (0x123456000, 0x2000)) line_params [txt "single"] line_devices.
Proof.
  intros Hst. destruct line_history as (Ec & Te & Ad & Hs & Hf & Hd). rewrite <- Hd. destruct hungry_reported as [Rc Rz].
  assert (Hw : wf_mem demo_mem = true) by (vm_compute; reflexivity).
  assert (Lp : lenN (default_of boot_params) = 4096) by (vm_compute; reflexivity).
  assert (Sen : uint_at (default_of boot_params) 0x1ef 1 = 0) by (vm_compute; reflexivity).
  assert (Lh : lenN hungry_h = 123) by (vm_compute; reflexivity).
  assert (Lr : 2 <= lenN two_banks <= 128) by (vm_compute; split; discriminate).
  assert (H9 : 0x9000 < 2 ^ 64) by reflexivity.
  assert (Hrd : 0x123456000 < 2 ^ 64) by reflexivity.
  assert (Hrs : 0x2000 < 2 ^ 64) by reflexivity.
  assert (Hcap : 200 <= 2048) by discriminate.
  assert (Er : ramdisk_of 255 0x123456000 0x2000 = Some (0x123456000, 0x2000)) by (vm_compute; reflexivity).
  pose proof (C118_zero_page true be hungry demo_mem (hungry_m1 be) hungry_res hungry_h (default_of boot_params) 0x7000
    hungry_tasks (hungry_m2 be) [Done (Ok tt); Written (Ok tt)] m3 0x9000 two_banks 0x123456000 0x2000 200 new_line three_devices
    line_params [txt "single"] three_requests Hw hungry_typed (hungry_loads be) Lp Sen Lh two_banks_typed Lr H9 Hrd Hrs Hcap Ec Te Ad Hs Hf
    hungry_tasks_typed hungry_separate (hungry_runs be) Rz Rc hungry_clear Hst) as X.
  rewrite Er in X. exact X.
Qed.
(** It is started and overwrites all of its 256 bytes. *)
Example C118_applies : forall be, exists m1 m2 m3,
  perform true be hungry demo_mem = (m1, Loaded (Ok hungry_res)) /\ task_typed hungry /\ all_separate (hungry :: hungry_tasks) /\ Forall task_typed hungry_tasks /\
  perform_all true be hungry_tasks m1 = (m2, [Done (Ok tt); Written (Ok tt)]) /\ clear_of hungry hungry_res hungry_tasks /\
  started hungry hungry_res m2 m3 /\ gm_byte m2 0x40ff = xff /\ gm_byte m3 0x40ff = xee /\
  exists v, view_zero_page m3 0x7000 = Some v /\ linux_has v two_banks (Some (0x123456000, 0x2000)) line_params [txt "single"] line_devices.
Proof.
  intros be. exists (hungry_m1 be), (hungry_m2 be), (wreck (within 0x4000 0x100) (hungry_m2 be)).
  assert (Hst : started hungry hungry_res (hungry_m2 be) (wreck (within 0x4000 0x100) (hungry_m2 be))).
  { apply wreck_started. intros x Hx. apply hungry_takes. exact (within_range _ _ _ Hx). }
  split; [exact (hungry_loads be)|]. split; [exact hungry_typed|]. split; [exact hungry_separate|]. split; [exact hungry_tasks_typed|].
  split; [exact (hungry_runs be)|]. split; [exact hungry_clear|]. split; [exact Hst|].
  split; [destruct be; vm_compute; reflexivity|]. split; [reflexivity|]. exact (hungry_sees be _ Hst).
Qed.

(** *** The ELF kernel of C108, which clears the memory after its segments, and its third segment, which is not in the file. *)
Lemma case_elf_takes x : takes case_elf elf_res x <-> in_range 0x1000000 32 x \/ in_range 0x1000004 4 x \/ in_range 0x5000 64 x.
Proof.
  unfold case_elf. cbn [takes]. change (rd_data (plain_reader demo_elf)) with demo_elf. unfold base_of.
  assert (P : map (fun p => (ph_type p, ph_paddr p, ph_memsz p)) (phdrs_of demo_elf) =
    [(1, 0x1000000, 32); (1, 0x1000004, 4); (1, 0x5000, 64); (4, 0, 0)]) by (vm_compute; reflexivity).
  split.
  - intros (p & Hp & Ty & Hx). rewrite N.add_0_l in Hx. apply (in_map (fun p => (ph_type p, ph_paddr p, ph_memsz p))) in Hp. rewrite P in Hp. rewrite Ty in Hp. cbn [In] in Hp.
    destruct Hp as [Q|[Q|[Q|[Q|[]]]]]; injection Q; intros; try discriminate.
    + left. congruence.
    + right; left. congruence.
    + right; right. congruence.
  - intros Hx. assert (K : exists a n, In (1, a, n) [(1, 0x1000000, 32); (1, 0x1000004, 4); (1, 0x5000, 64); (4, 0, 0)] /\ in_range a n x).
    { destruct Hx as [Hx|[Hx|Hx]]; (do 2 eexists; split; [|exact Hx]); cbn [In]; tauto. }
    destruct K as (a & n & Hin & Hr). rewrite <- P in Hin. apply in_map_iff in Hin as (p & Ep & Hp). injection Ep as E1 E2 E3.
    exists p. split; [exact Hp|]. split; [exact E1|]. rewrite N.add_0_l, E2, E3. exact Hr.
Qed.
Lemma elf_clear : clear_of case_elf elf_res elf_tasks.
Proof.
  intros v y [<-|[<-|[]]] Hy Ht; apply case_elf_takes in Ht; unfold in_range in Ht; [apply case_params_area in Hy|apply full_line_area in Hy]; lia.
Qed.
Lemma elf_sees be m3 : started case_elf elf_res (elf_m2 be) m3 -> exists v, view_start_info m3 0x7000 = Some v /\
    linux_has v (two_banks ++ [(0xa0000, 0x60000, 2)]) (Some (0x6000, 16)) line_params [txt "single"] line_devices.
Proof.
  intros Hst. assert (Tm : mods_typed two_modules) by (intros a s [H|[H|[]]]; injection H as <- <-; split; reflexivity).
  destruct line_history as (Ec & Tel & Ad & Hs & Hf & Hd). rewrite <- Hd. destruct elf_reported as [Rp Rc].
  assert (Hw : wf_mem demo_mem = true) by (vm_compute; reflexivity).
  assert (Hh : header case_params = start_info_page 0x7100 (lenN two_banks) 0x7200 (lenN two_modules) 0x9000) by (vm_compute; reflexivity).
  assert (S1 : sections case_params = Some (concat (map memmap_entry two_banks))) by (vm_compute; reflexivity).
  assert (S2 : sections_start case_params = Some 0x7100) by (vm_compute; reflexivity).
  assert (Hmod : two_modules <> [] -> modules case_params = Some (concat (map modlist_entry two_modules)) /\ modules_start case_params = Some 0x7200)
    by (intros _; vm_compute; split; reflexivity).
  assert (Lr : 1 <= lenN two_banks <= 128) by (vm_compute; split; discriminate).
  assert (Lm : lenN two_modules < 2 ^ 32) by reflexivity.
  assert (H1 : 0x7100 < 2 ^ 64) by reflexivity.
  assert (H2 : 0x7200 < 2 ^ 64) by reflexivity.
  assert (H9 : 0x9000 < 2 ^ 32) by reflexivity.
  assert (Hcap : 200 <= 2048) by discriminate.
  assert (Er : first_module two_modules = Some (0x6000, 16)) by (vm_compute; reflexivity).
  assert (Ei : isa_room (lenN two_banks) = [(0xa0000, 0x60000, 2)]) by (vm_compute; reflexivity).
  pose proof (C118_pvh true be case_elf demo_mem (elf_m1 be) elf_res
    elf_tasks (elf_m2 be) [Written (Ok tt); Done (Ok tt)] m3 case_params 0x7100 0x7200 0x9000 two_banks two_modules 200 new_line three_devices
    line_params [txt "single"] three_requests Hw case_elf_typed (elf_loads be) Hh S1 S2 Hmod two_banks_typed Lr Tm Lm H1 H2 H9 Hcap Ec Tel Ad Hs Hf
    elf_typed elf_separate (elf_runs be) case_disjoint Rp Rc elf_clear Hst) as X.
  rewrite Er, Ei in X. exact X.
Qed.
Example C118_applies_pvh : forall be, exists m1 m2 m3,
  perform true be case_elf demo_mem = (m1, Loaded (Ok elf_res)) /\ task_typed case_elf /\ all_separate (case_elf :: elf_tasks) /\ Forall task_typed elf_tasks /\
  perform_all true be elf_tasks m1 = (m2, [Written (Ok tt); Done (Ok tt)]) /\ clear_of case_elf elf_res elf_tasks /\
  started case_elf elf_res m2 m3 /\ gm_byte m2 0x503f = xff /\ gm_byte m3 0x503f = xee /\
  exists v, view_start_info m3 0x7000 = Some v /\
    linux_has v (two_banks ++ [(0xa0000, 0x60000, 2)]) (Some (0x6000, 16)) line_params [txt "single"] line_devices.
Proof.
  intros be. exists (elf_m1 be), (elf_m2 be), (wreck (within 0x5000 64) (elf_m2 be)).
  assert (Hst : started case_elf elf_res (elf_m2 be) (wreck (within 0x5000 64) (elf_m2 be))).
  { apply wreck_started. intros x Hx. apply case_elf_takes. right; right. exact (within_range _ _ _ Hx). }
  split; [exact (elf_loads be)|]. split; [exact case_elf_typed|]. split; [exact elf_separate|]. split; [exact elf_typed|].
  split; [exact (elf_runs be)|]. split; [exact elf_clear|]. split; [exact Hst|].
  split; [destruct be; vm_compute; reflexivity|]. split; [reflexivity|]. exact (elf_sees be _ Hst).
Qed.

(** *** The Image of C117 asks for 4096 bytes (the file has 67); the tree is right behind these. *)
Lemma vm_takes a x : takes (vm_image a) vm_res x <-> in_range 0x200080 4096 x.
Proof.
  unfold vm_image. cbn [takes]. change (rd_data (plain_reader (demo_pe a 0x80 4096))) with (demo_pe a 0x80 4096).
  replace (pe_image_size (demo_pe a 0x80 4096)) with 4096 by (destruct a; vm_compute; reflexivity). reflexivity.
Qed.
Definition tree_call : task := WriteFdt (bp_new vm_blob 0x201080).
Definition tree_m2 (a : arch) (be : backend) : gmem := fst (perform_all true be [tree_call] (vm_m1 a be)).
Lemma tree_runs a be : perform_all true be [tree_call] (vm_m1 a be) = (tree_m2 a be, [Written (Ok tt)]).
Proof. unfold tree_m2. destruct a, be; apply pair_up; vm_compute; reflexivity. Qed.
Lemma tree_area x : touches tree_call x -> 0x201080 <= x.
Proof. intros H. unfold tree_call, touches, in_range in H. exact (proj1 H). Qed.
Lemma tree_separate a : all_separate [vm_image a; tree_call].
Proof.
  apply FOP_cons; [apply Forall_cons; [|apply Forall_nil]|apply FOP_cons; [apply Forall_nil|apply FOP_nil]].
  intros x H1 H2. apply tree_area in H2. unfold vm_image, touches, in_range in H1.
  assert (L : lenN (rd_data (plain_reader (demo_pe a 0x80 4096))) = 67) by (destruct a; vm_compute; reflexivity). rewrite L in H1.
  assert (B : pe_load_addr a (rd_data (plain_reader (demo_pe a 0x80 4096))) (Some 0x200000) = 0x200080) by (destruct a; vm_compute; reflexivity). rewrite B in H1. lia.
Qed.
Lemma tree_clear a : clear_of (vm_image a) vm_res [tree_call].
Proof. intros v y [<-|[]] Hy Ht. pose proof (proj1 (vm_takes a y) Ht) as (T1 & T2). pose proof (tree_area y Hy) as T3. clear Ht Hy. lia. Qed.
Lemma tree_sees a be m3 : started (vm_image a) vm_res (tree_m2 a be) m3 -> exists v, view_dtb (line_limit a) m3 0x201080 = Some v /\
    linux_has v [(0x200000, 0x7e00000, 1); (0x880000000, 0x100000, 1)] (Some (0x4000000, 0x2000)) line_params [txt "single"] line_devices.
Proof.
  intros Hst. assert (Hts : Forall task_typed [tree_call]) by (apply Forall_cons; [reflexivity|apply Forall_nil]).
  assert (Hsz : field vm_blob 4 <= 2 ^ 21) by (rewrite (proj2 vm_blob_ok), vm_blob_len; discriminate).
  destruct line_history as (Ec & Te & Ad & Hs & Hf & Hd). rewrite <- Hd.
  assert (Hw : wf_mem dtb_mem = true) by (vm_compute; reflexivity).
  assert (R : reported [tree_call] [Written (Ok tt)] (WriteFdt (bp_new vm_blob 0x201080)) (Written (Ok tt))) by (exists 0%nat; split; reflexivity).
  assert (Hcap : 200 <= line_limit a) by (destruct a; discriminate).
  exact (C118_device_tree true be a (vm_image a) dtb_mem (vm_m1 a be) vm_res _ (tree_m2 a be) _ m3 vm_blob 0x201080
    _ _ _ (Some (0x4000000, 0x2000)) _ _ two_regs 200 new_line three_devices line_params [txt "single"] three_requests full_bytes
    Hw (vm_image_typed a) (vm_loads a be) Hts (tree_separate a) (tree_runs a be) (or_introl R) Hcap Ec Te Ad Hs Hf full_bytes_ok (proj1 vm_blob_ok) eq_refl Hsz vm_machine
    (tree_clear a) Hst).
Qed.
Example C118_applies_image : forall a be, exists m1 m2 m3,
  perform true be (vm_image a) dtb_mem = (m1, Loaded (Ok vm_res)) /\ task_typed (vm_image a) /\ all_separate [vm_image a; tree_call] /\
  perform_all true be [tree_call] m1 = (m2, [Written (Ok tt)]) /\ clear_of (vm_image a) vm_res [tree_call] /\
  started (vm_image a) vm_res m2 m3 /\ gm_byte m2 0x20107f = xff /\ gm_byte m3 0x20107f = xee /\
  exists v, view_dtb (line_limit a) m3 0x201080 = Some v /\
    linux_has v [(0x200000, 0x7e00000, 1); (0x880000000, 0x100000, 1)] (Some (0x4000000, 0x2000)) line_params [txt "single"] line_devices.
Proof.
  intros a be. exists (vm_m1 a be), (tree_m2 a be), (wreck (within 0x200080 4096) (tree_m2 a be)).
  assert (Hst : started (vm_image a) vm_res (tree_m2 a be) (wreck (within 0x200080 4096) (tree_m2 a be))).
  { apply wreck_started. intros x Hx. apply vm_takes. exact (within_range _ _ _ Hx). }
  split; [exact (vm_loads a be)|]. split; [exact (vm_image_typed a)|]. split; [exact (tree_separate a)|].
  split; [exact (tree_runs a be)|]. split; [exact (tree_clear a)|]. split; [exact Hst|].
  split; [destruct a, be; vm_compute; reflexivity|]. split; [reflexivity|]. exact (tree_sees a be _ Hst).
Qed.
