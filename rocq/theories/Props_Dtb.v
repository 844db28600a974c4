(** * Props_Dtb: C117, what an arm64 or riscv64 kernel gets from the device tree the VMM wrote. *)
From Coq Require Import ZArith.
From Verif Require Import Base Base_proofs Io Mem SpecMem Mem_proofs Layout SpecFile File_proofs Text Cmdline SpecCmdline Text_proofs Cmdline_proofs
  Cmdline_proofs2 Cmdline_proofs3 Loader Elf SpecElf
  BzImage SpecBz Bz_proofs Pe SpecPe BootParams Configurators SpecBoot SpecAbi Layout_proofs Demo_elf SpecVmm Vmm_proofs
  Props_Cmdline Props_Loader Props_Elf Props_Bz Props_Pe Props_Config Props_Boot Props_Abi Props_Vmm Props_Boot_e2e Props_Place SpecKernel Kernel_proofs Props_Kernel SpecDriver Props_Driver
  SpecGuest Props_Guest Props_GuestPvh Props_GuestCases SpecDtb Dtb_proofs Dtb_proofs2.
Local Open Scope list_scope.

(** ** The tree of a machine *)
Lemma same_iff a b : same a b = true <-> a = b.
Proof. unfold same. destruct (list_eq_dec Byte.byte_eq_dec a b); split; congruence. Qed.
Lemma same_refl a : same a a = true.
Proof. now apply same_iff. Qed.
Lemma same_not a b : a <> b -> same a b = false.
Proof. intros H. destruct (same a b) eqn:E; [|reflexivity]. now apply same_iff in E. Qed.
Lemma same_iff_not a b : same a b = false -> a <> b.
Proof. intros E ->. rewrite same_refl in E. discriminate. Qed.

Lemma find_app {A} (p : A -> bool) l1 l2 : (forall x, In x l1 -> p x = false) -> find p (l1 ++ l2) = find p l2.
Proof.
  induction l1 as [|x l1 IH]; intros H; [reflexivity|]. cbn [app find]. rewrite (H x (or_introl eq_refl)). apply IH. intros y Hy. apply H. now right.
Qed.
Lemma prop_cons name n v ps ts x : prop name (Node x ((n, v) :: ps) ts) = if same n (named name) then Some v else prop name (Node x ps ts).
Proof. unfold prop. cbn [find]. change (fst (n, v)) with n. destruct (same n (named name)); reflexivity. Qed.
Lemma prop_absent name ps ts x : Forall (fun p => fst p <> named name) ps -> prop name (Node x ps ts) = None.
Proof.
  intros H. induction H as [|[n v] ps Hn H IH]; [reflexivity|]. cbn [fst] in Hn. rewrite prop_cons, (same_not _ _ Hn). exact IH.
Qed.

Lemma chosen_machine more before after line rd cm mn ram : Forall other_node before ->
  chosen (machine more before after line rd cm mn ram) = Some (chosen_node line rd cm).
Proof.
  intros H. unfold chosen, machine. cbn [inside].
  rewrite find_app.
  - cbn [app find]. unfold chosen_node at 1. cbn [name_of]. rewrite same_refl. reflexivity.
  - intros x Hx. apply same_not. rewrite Forall_forall in H. apply (H x Hx).
Qed.

Lemma banks_regs ram : ram_typed ram -> forall room, (length ram <= room)%nat ->
  banks room 2 2 (flat_map (fun p => be64 (fst p) ++ be64 (snd p)) ram) = map (fun p => (fst p, snd p, 1)) ram.
Proof.
  intros H. induction ram as [|[a s] ram IH]; intros room Hr.
  - destruct room; reflexivity.
  - destruct room as [|room]; [cbn in Hr; lia|]. cbn [banks flat_map fst snd map].
    destruct (H a s (or_introl eq_refl)) as (Ha & Hs0 & Hs).
    assert (L : lenN ((be64 a ++ be64 s) ++ flat_map (fun p => be64 (fst p) ++ be64 (snd p)) ram) <? 4 * (2 + 2) = false).
    { apply N.ltb_ge. rewrite !lenN_app. unfold lenN. rewrite !length_be64. lia. }
    rewrite L. change (N.to_nat (4 * 2)) with 8%nat. change (N.to_nat (4 * (2 + 2))) with 16%nat. rewrite <- !app_assoc.
    rewrite firstn_past by (symmetry; apply length_be64). rewrite be64_num by exact Ha.
    rewrite (skipn_past (be64 a)) by (symmetry; apply length_be64).
    rewrite firstn_past by (symmetry; apply length_be64). rewrite be64_num by exact Hs.
    rewrite !N.mod_small by assumption.
    assert (E0 : s =? 0 = false) by (apply N.eqb_neq; lia). rewrite E0. f_equal.
    rewrite app_assoc, skipn_past by (rewrite app_length, !length_be64; reflexivity).
    apply IH; [intros x y Hxy; apply H; now right|cbn in Hr; lia].
Qed.
Lemma regs_long (ram : list (N * N)) : (length ram <= length (flat_map (fun p => be64 (fst p) ++ be64 (snd p)) ram))%nat.
Proof. induction ram as [|p ram IH]; [constructor|]. cbn [flat_map length]. rewrite !app_length, !length_be64. lia. Qed.

Lemma other_gives_none f ts : Forall other_node ts -> flat_map (fun c => if is_memory c then f c else []) ts = @nil (N * N * N).
Proof. intros H. induction H as [|t ts (_ & Hm) H IH]; [reflexivity|]. cbn [flat_map]. rewrite Hm. exact IH. Qed.

Lemma chosen_not_memory line rd cm : Forall chosen_extra cm -> is_memory (chosen_node line rd cm) = false.
Proof.
  intros H. unfold is_memory.
  assert (E : prop "device_type" (chosen_node line rd cm) = None).
  { unfold chosen_node. apply prop_absent. constructor; [cbn [fst]; apply same_iff_not; vm_compute; reflexivity|].
    apply Forall_app. split.
    - destruct rd as [[s n]|]; [|constructor]. constructor; [apply same_iff_not; vm_compute; reflexivity|].
      constructor; [apply same_iff_not; vm_compute; reflexivity|constructor].
    - rewrite Forall_forall in *. intros p Hp. apply (H p Hp). }
  rewrite E. reflexivity.
Qed.

Lemma memory_node_is mn ram : is_memory (memory_node mn ram) = true.
Proof. vm_compute. reflexivity. Qed.

Lemma memory_machine more before after line rd cm mn ram : machine_typed before after rd cm mn ram ->
  memory_of (machine more before after line rd cm mn ram) = map (fun p => (fst p, snd p, 1)) ram.
Proof.
  intros (Hb & Ha & _ & Hc & _ & Hr). unfold memory_of.
  assert (C1 : cells "#address-cells" (machine more before after line rd cm mn ram) = 2).
  { unfold cells, machine. rewrite prop_cons. rewrite same_refl. reflexivity. }
  assert (C2 : cells "#size-cells" (machine more before after line rd cm mn ram) = 2).
  { unfold cells, machine. rewrite !prop_cons.
    assert (X : same (named "#address-cells") (named "#size-cells") = false) by (vm_compute; reflexivity). rewrite X, same_refl. reflexivity. }
  rewrite C1, C2. unfold machine. cbn [inside]. rewrite !flat_map_app.
  rewrite (other_gives_none _ before Hb), (other_gives_none _ after Ha). rewrite app_nil_r. cbn [app flat_map].
  rewrite (chosen_not_memory line rd cm Hc), memory_node_is.
  assert (P1 : prop "linux,usable-memory" (memory_node mn ram) = None) by (vm_compute; reflexivity).
  assert (P2 : prop "reg" (memory_node mn ram) = Some (flat_map (fun p => be64 (fst p) ++ be64 (snd p)) ram)).
  { unfold memory_node. rewrite !prop_cons.
    assert (X : same (named "device_type") (named "reg") = false) by (vm_compute; reflexivity). rewrite X, same_refl. reflexivity. }
  rewrite P1, P2. cbn [app]. rewrite app_nil_r. apply banks_regs; [exact Hr|apply regs_long].
Qed.

Lemma disk_machine line rd cm : disk_typed rd -> Forall chosen_extra cm -> disk (chosen_node line rd cm) = rd.
Proof.
  intros Hd Hc. unfold disk, chosen_node. rewrite !prop_cons.
  assert (X1 : same (named "bootargs") (named "linux,initrd-start") = false) by (vm_compute; reflexivity).
  assert (X2 : same (named "bootargs") (named "linux,initrd-end") = false) by (vm_compute; reflexivity).
  rewrite X1, X2. destruct rd as [[s n]|]; cbn [app].
  - rewrite !prop_cons, same_refl.
    assert (X3 : same (named "linux,initrd-start") (named "linux,initrd-end") = false) by (vm_compute; reflexivity).
    rewrite X3, same_refl. destruct (Hd s n eq_refl) as (Hn & Hs).
    rewrite !be64_num by lia. rewrite !N.mod_small by lia.
    destruct (N.leb_spec (s + n) s) as [K|_]; [lia|]. do 2 f_equal. lia.
  - rewrite prop_absent; [reflexivity|]. rewrite Forall_forall in *. intros p Hp. apply (Hc p Hp).
Qed.

Lemma line_machine limit line rd cm : ~ In x00 line -> lenN line < limit -> boot_line limit (chosen_node line rd cm) = map n8 line.
Proof.
  intros Hz Hl. unfold boot_line, chosen_node. rewrite prop_cons, same_refl.
  change (line ++ [x00]) with (line ++ [x00] ++ []). rewrite until_nul_name by exact Hz. apply firstn_all2. rewrite map_length. unfold lenN in Hl. lia.
Qed.

Lemma view_machine limit more before after line rd cm mn ram :
  machine_typed before after rd cm mn ram -> ~ In x00 line -> lenN line < limit ->
  view_tree limit (machine more before after line rd cm mn ram) = mkView (map (fun p => (fst p, snd p, 1)) ram) rd (map n8 line).
Proof.
  intros T Hz Hl. pose proof T as (Hb & Ha & Hd & Hc & Hm & Hr). unfold view_tree.
  rewrite chosen_machine by exact Hb. rewrite (memory_machine _ _ _ _ _ _ _ _ T), (disk_machine _ _ _ Hd Hc), (line_machine _ _ _ _ Hz Hl). reflexivity.
Qed.

(** ** C117 *)
(** Any blob that is some flattened form of a tree, at an aligned address: the kernel reads that tree, however the blob got there. *)
Theorem C117_tree_read : forall m a f t, holds_at m a f -> blob f t -> a mod 8 = 0 -> field f 4 <= 2 ^ 21 -> tree_at m a = Some t.
Proof. exact tree_at_blob. Qed.

(** The VMM loads an Image and performs any calls on separate areas in any order, among them writing (through the configurator, or from a file
    with [load_dtb]) a device tree blob, of any writer, that describes its memory, ramdisk and command line. Linux has exactly those, and the
    kernel is where the boot protocol wants it: at its text offset from a multiple of 2 MiB. *)
Theorem C117_dtb_boot : forall bld be a off highmem r m m1 res ts m2 xs f z more before after line rd cm mn ram,
  wf_mem m = true -> task_typed (LoadPe a off highmem r) ->
  perform bld be (LoadPe a off highmem r) m = (m1, Loaded (Ok res)) ->
  Forall task_typed ts -> all_separate (LoadPe a off highmem r :: ts) -> perform_all bld be ts m1 = (m2, xs) ->
  (reported ts xs (WriteFdt (bp_new f z)) (Written (Ok tt)) \/ exists im, rd_data im = f /\ reported ts xs (LoadDtb z im) (Done (Ok tt))) ->
  blob f (machine more before after line rd cm mn ram) -> z mod 8 = 0 -> field f 4 <= 2 ^ 21 ->
  machine_typed before after rd cm mn ram -> ~ In x00 line -> lenN line < line_limit a ->
  holds_at m2 (kernel_load res) (rd_data r) /\
  (exists k, kernel_load res = k * 2 ^ 21 + pe_text_offset a (rd_data r)) /\
  view_dtb (line_limit a) m2 z = Some (mkView (map (fun p => (fst p, snd p, 1)) ram) rd (map n8 line)).
Proof.
  intros until ram. intros Hw Ht E Hts Hsep H Hrep Hb Hz Hsz T Hl0 Hl.
  destruct (C71_fdt_boot _ _ _ _ _ _ _ _ _ _ _ _ Hw Ht E Hts Hsep H) as (Hk & Hf & Hd & _).
  split; [exact Hk|].
  assert (Hm : holds_at m2 z f).
  { destruct Hrep as [R|(im & <- & R)]; [exact (Hf _ R)|exact (Hd _ _ R)]. }
  split.
  - cbn [perform] in E. destruct (pe_load a be off highmem r m) as [[r' m'] o] eqn:F. injection E as -> ->.
    assert (Hr : pe_runs a be off highmem r m m1 (Ok res)) by (split; [exact Ht|split; [exact Hw|eauto]]).
    destruct (C39_pe_placement _ _ _ _ _ _ _ _ Hr) as (Hload & _).
    assert (D : pe_magic_good a (rd_data r) \/ ~ pe_magic_good a (rd_data r)).
    { unfold pe_magic_good. destruct a; match goal with |- ?x = ?y \/ _ => destruct (N.eq_dec x y) as [X|X]; [left|right]; exact X end. }
    assert (B : pe_base off mod (2 * 1024 * 1024) = 0).
    { destruct (N.eq_dec (pe_base off mod (2 * 1024 * 1024)) 0) as [B|B]; [exact B|exfalso].
      assert (P : exists e, pe_problem a (rd_data r) off e).
      { destruct (N.lt_ge_cases (lenN (rd_data r)) 64) as [L|L]; [eexists; now apply pp_short|].
        destruct D as [D|D]; eexists; [now apply pp_align|now apply pp_magic]. }
      destruct P as (e & P). destruct (C40_pe_rejects _ _ _ _ _ _ _ _ _ Hr P) as (_ & (e' & X) & _). discriminate X. }
    exists (pe_base off / 2 ^ 21). rewrite Hload. unfold pe_base in *. change (2 * 1024 * 1024) with (2 ^ 21) in B.
    assert (Q : (match off with Some k => k | None => 0 end) = 2 ^ 21 * (match off with Some k => k | None => 0 end / 2 ^ 21)).
    { rewrite <- (N.add_0_r (2 ^ 21 * _)), <- B at 1. apply N.div_mod'. }
    rewrite Q at 1. lia.
  - unfold view_dtb. rewrite (tree_at_blob _ _ _ _ Hm Hb Hz Hsz). f_equal. apply view_machine; assumption.
Qed.

(** With the calls that built the command line: its serialised form is the tree's [bootargs]. Linux has the parameters that were inserted, gives the
    init arguments to init and creates the devices that were added. *)
Theorem C117_linux_has : forall bld be a off highmem r m m1 res ts m2 xs f z more before after rd cm mn ram cap c0 os ps is qs s,
  wf_mem m = true -> task_typed (LoadPe a off highmem r) ->
  perform bld be (LoadPe a off highmem r) m = (m1, Loaded (Ok res)) ->
  Forall task_typed ts -> all_separate (LoadPe a off highmem r :: ts) -> perform_all bld be ts m1 = (m2, xs) ->
  (reported ts xs (WriteFdt (bp_new f z)) (Written (Ok tt)) \/ exists im, rd_data im = f /\ reported ts xs (LoadDtb z im) (Done (Ok tt))) ->
  cap <= line_limit a -> cmdline_new cap = Ok c0 -> tells bld c0 os ps is (run_ops bld c0 os) -> adds bld c0 os qs (run_ops bld c0 os) ->
  Forall sensible qs -> ids_fit 0 qs -> as_cstring (run_ops bld c0 os) = Ok s ->
  blob f (machine more before after s rd cm mn ram) -> z mod 8 = 0 -> field f 4 <= 2 ^ 21 ->
  machine_typed before after rd cm mn ram ->
  exists v, view_dtb (line_limit a) m2 z = Some v /\ linux_has v (map (fun p => (fst p, snd p, 1)) ram) rd ps is (expected 0 qs).
Proof.
  intros until s. intros Hw Ht E Hts Hsep H Hrep Hc Ec Te Ad Hs Hf Es Hb Hz Hsz T.
  assert (Hc64 : cap < 2 ^ 64) by (apply N.le_lt_trans with (line_limit a); [exact Hc|destruct a; reflexivity]).
  assert (V : cmdline_to_vec (run_ops bld c0 os) = Ok (s ++ [x00])) by (unfold cmdline_to_vec; rewrite Es; reflexivity).
  assert (Hl0 : ~ In x00 s).
  { destruct (C08_one_nul _ _ V) as (b & Eb & Hb0). apply app_inj_tail in Eb. destruct Eb as (-> & _). exact Hb0. }
  assert (Hl : lenN s < line_limit a).
  { assert (Tk : ctor_typed (New cap)) by exact Hc64.
    pose proof (capacity_respected bld (New cap) c0 os (s ++ [x00]) Tk Ec V) as X. rewrite lenN_app in X. change (lenN [x00]) with 1 in X. cbn [ctor_cap] in X. lia. }
  destruct (C117_dtb_boot _ _ _ _ _ _ _ _ _ _ _ _ _ _ _ _ _ _ _ _ _ _ Hw Ht E Hts Hsep H Hrep Hb Hz Hsz T Hl0 Hl) as (_ & _ & Hv).
  eexists. split; [exact Hv|]. unfold linux_has. cbn [memory_map ramdisk command_line].
  split; [reflexivity|]. split; [reflexivity|].
  split; [exact (C76_kernel_sees_inserted_new bld cap c0 os ps is _ s Hc64 Ec Te Es)|exact (C106_devices bld cap c0 os qs _ s Hc64 Ec Ad Es Hs Hf)].
Qed.

(** The format can express every tree: names without NUL, at most 4 GiB. *)
Theorem C117_every_tree : forall ps ts, well_named (Node [] ps ts) -> lenN (write_blob (Node [] ps ts)) < 2 ^ 32 ->
  blob (write_blob (Node [] ps ts)) (Node [] ps ts) /\ field (write_blob (Node [] ps ts)) 4 = lenN (write_blob (Node [] ps ts)).
Proof. exact write_blob_ok. Qed.

(** ** Cases *)
(** One processor, two banks of memory, a ramdisk, and the command line of C106. *)
Definition full_bytes : bytes := utf8 (txt "virtio_mmio.device=4K@0xd0000000:5 console=ttyS0 virtio_mmio.device=1000@0xd0001000:6:7 virtio_mmio.device=2M@0xd0200000:7 -- single").
Definition cpus_node : tree := Node (named "cpus") [] [Node (named "cpu@0") [(named "device_type", named "cpu" ++ [x00]); (named "reg", be32 0)] []].
Definition two_regs : list (N * N) := [(0x200000, 0x7e00000); (0x880000000, 0x100000)].
Definition vm_tree : tree :=
  machine [(named "compatible", named "linux,dummy-virt" ++ [x00])] [cpus_node] [] full_bytes (Some (0x4000000, 0x2000)) [(named "kaslr-seed", be64 7)]
    (named "memory@200000") two_regs.
Definition vm_blob : bytes := write_blob vm_tree.
Definition dtb_mem : gmem := mkMem [mkRegion 0x200000 0x2000] (fun _ => xff).
Definition vm_image (a : arch) : task := LoadPe a (Some 0x200000) None (plain_reader (demo_pe a 0x80 4096)).
Definition vm_m1 (a : arch) (be : backend) : gmem := fst (perform true be (vm_image a) dtb_mem).
Definition vm_res : load_result := mkResult 0x200080 0x2000c3 None PvhEntryIgnored.
Definition vm_m2 (a : arch) (be : backend) : gmem := fst (perform_all true be [WriteFdt (bp_new vm_blob 0x201008)] (vm_m1 a be)).

Lemma vm_machine : machine_typed [cpus_node] [] (Some (0x4000000, 0x2000)) [(named "kaslr-seed", be64 7)] (named "memory@200000") two_regs.
Proof.
  split; [|split; [|split; [|split; [|split]]]].
  - apply Forall_cons; [|apply Forall_nil]. split; [apply same_iff_not; vm_compute; reflexivity|vm_compute; reflexivity].
  - apply Forall_nil.
  - intros s n X. injection X as <- <-. split; reflexivity.
  - apply Forall_cons; [|apply Forall_nil]. split; apply same_iff_not; vm_compute; reflexivity.
  - apply same_iff_not. vm_compute. reflexivity.
  - intros x y [X|[X|[]]]; injection X as <- <-; (split; [reflexivity|split; reflexivity]).
Qed.
Definition clean (l : bytes) : bool := negb (existsb (fun b => n8 b =? 0) l).
Lemma clean_iff l : clean l = true -> ~ In x00 l.
Proof.
  intros H K. unfold clean in H. apply Bool.negb_true_iff in H. assert (X : existsb (fun b => n8 b =? 0) l = true) by (apply existsb_exists; exists x00; split; [exact K|reflexivity]).
  congruence.
Qed.
Lemma vm_named : well_named vm_tree.
Proof.
  unfold vm_tree, machine. cbn [app cpus_node chosen_node memory_node well_named].
  repeat match goal with
  | |- _ /\ _ => split
  | |- True => exact I
  | |- Forall _ (_ :: _) => apply Forall_cons
  | |- Forall _ [] => apply Forall_nil
  | |- ~ In x00 _ => apply clean_iff; vm_compute; reflexivity
  end.
Qed.
Lemma vm_blob_ok : blob vm_blob vm_tree /\ field vm_blob 4 = lenN vm_blob.
Proof.
  assert (L : lenN (write_blob vm_tree) < 2 ^ 32) by (vm_compute; reflexivity).
  exact (C117_every_tree _ _ vm_named L).
Qed.
Lemma vm_blob_len : lenN vm_blob = 638.
Proof. vm_compute. reflexivity. Qed.

Lemma vm_image_typed a : task_typed (vm_image a).
Proof. apply plain_wf. destruct a; vm_compute; reflexivity. Qed.
Lemma vm_loads a be : perform true be (vm_image a) dtb_mem = (vm_m1 a be, Loaded (Ok vm_res)).
Proof. unfold vm_m1. destruct a, be; apply pair_up; vm_compute; reflexivity. Qed.
Lemma vm_runs a be : perform_all true be [WriteFdt (bp_new vm_blob 0x201008)] (vm_m1 a be) = (vm_m2 a be, [Written (Ok tt)]).
Proof. unfold vm_m2. destruct a, be; apply pair_up; vm_compute; reflexivity. Qed.
Lemma vm_separate a : all_separate [vm_image a; WriteFdt (bp_new vm_blob 0x201008)].
Proof.
  apply FOP_cons; [apply Forall_cons; [|apply Forall_nil]|apply FOP_cons; [apply Forall_nil|apply FOP_nil]].
  intros x H1 H2.
  assert (A : x < 0x201000).
  { unfold vm_image, touches, in_range in H1.
    assert (L : lenN (rd_data (plain_reader (demo_pe a 0x80 4096))) = 67) by (destruct a; vm_compute; reflexivity). rewrite L in H1.
    assert (B : pe_load_addr a (rd_data (plain_reader (demo_pe a 0x80 4096))) (Some 0x200000) = 0x200080) by (destruct a; vm_compute; reflexivity). rewrite B in H1. lia. }
  unfold touches, in_range in H2. change (header_start (bp_new vm_blob 0x201008)) with 0x201008 in H2. lia.
Qed.
Lemma full_bytes_ok : as_cstring full_line = Ok full_bytes.
Proof. vm_compute. reflexivity. Qed.

(** An arm64 and a riscv64 machine whose device tree the configurator writes. *)
Example C117_applies : forall a be, exists m1 m2,
  let ts := [WriteFdt (bp_new vm_blob 0x201008)] in
  perform true be (vm_image a) dtb_mem = (m1, Loaded (Ok vm_res)) /\ task_typed (vm_image a) /\ Forall task_typed ts /\ all_separate (vm_image a :: ts) /\
  perform_all true be ts m1 = (m2, [Written (Ok tt)]) /\ blob vm_blob vm_tree /\ 0x201008 mod 8 = 0 /\ field vm_blob 4 <= 2 ^ 21 /\
  machine_typed [cpus_node] [] (Some (0x4000000, 0x2000)) [(named "kaslr-seed", be64 7)] (named "memory@200000") two_regs /\
  exists v, view_dtb (line_limit a) m2 0x201008 = Some v /\
    linux_has v [(0x200000, 0x7e00000, 1); (0x880000000, 0x100000, 1)] (Some (0x4000000, 0x2000)) line_params [txt "single"] line_devices.
Proof.
  intros a be. exists (vm_m1 a be), (vm_m2 a be). cbv zeta. split; [exact (vm_loads a be)|]. split; [exact (vm_image_typed a)|].
  assert (Hts : Forall task_typed [WriteFdt (bp_new vm_blob 0x201008)]) by (apply Forall_cons; [reflexivity|apply Forall_nil]).
  split; [exact Hts|]. split; [exact (vm_separate a)|]. split; [exact (vm_runs a be)|]. split; [exact (proj1 vm_blob_ok)|].
  split; [reflexivity|].
  assert (Hsz : field vm_blob 4 <= 2 ^ 21) by (rewrite (proj2 vm_blob_ok), vm_blob_len; discriminate).
  split; [exact Hsz|]. split; [exact vm_machine|].
  destruct line_history as (Ec & Te & Ad & Hs & Hf & Hd). rewrite <- Hd.
  assert (Hw : wf_mem dtb_mem = true) by (vm_compute; reflexivity).
  assert (R : reported [WriteFdt (bp_new vm_blob 0x201008)] [Written (Ok tt)] (WriteFdt (bp_new vm_blob 0x201008)) (Written (Ok tt))) by (exists 0%nat; split; reflexivity).
  assert (Hcap : 200 <= line_limit a) by (destruct a; discriminate).
  exact (C117_linux_has true be a (Some 0x200000) None (plain_reader (demo_pe a 0x80 4096)) dtb_mem (vm_m1 a be) vm_res _ (vm_m2 a be) _ vm_blob 0x201008
    _ _ _ (Some (0x4000000, 0x2000)) _ _ two_regs 200 new_line three_devices line_params [txt "single"] three_requests full_bytes
    Hw (vm_image_typed a) (vm_loads a be) Hts (vm_separate a) (vm_runs a be) (or_introl R) Hcap Ec Te Ad Hs Hf full_bytes_ok (proj1 vm_blob_ok) eq_refl Hsz vm_machine).
Qed.

(** The crate does not look at the address of a tree: it also writes one where the kernel will not accept it. *)
Example C117_misplaced : forall be, exists m2,
  perform true be (WriteFdt (bp_new vm_blob 0x20100c)) dtb_mem = (m2, Written (Ok tt)) /\ tree_at m2 0x20100c = None.
Proof.
  intros be. exists (fst (perform true be (WriteFdt (bp_new vm_blob 0x20100c)) dtb_mem)). split; [destruct be; apply pair_up; vm_compute; reflexivity|].
  unfold tree_at. change (0x20100c mod 8 =? 0) with false. reflexivity.
Qed.
