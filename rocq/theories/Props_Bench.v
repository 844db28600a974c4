(** * Props_Bench: C122, a call can be repeated any number of times, and the benchmarks that do so work. *)
From Coq Require Import String.
From Verif Require Import Base Base_proofs Io Mem SpecMem Mem_proofs Layout Loader Elf BzImage BootParams Configurators
  SpecFile SpecElf SpecBz SpecBoot SpecVmm Vmm_proofs Demo_elf Props_Vmm Props_Bz Fixtures Benches.
Local Open Scope list_scope.

Lemma is_ok_success x : is_ok x = true <-> success x.
Proof.
  unfold success. split.
  - destruct x as [[r|e|p]|[[]|e|p]|[[]|e|p]]; cbn; intros H; try discriminate H; [left; eexists; reflexivity|right; left; reflexivity|right; right; reflexivity].
  - intros [[r ->]|[->| ->]]; reflexivity.
Qed.
Lemma same_trans a b c : same_bytes a b -> same_bytes b c -> same_bytes a c.
Proof. intros [R B] [R' B']. split; [congruence|]. intros x. rewrite B. apply B'. Qed.
Lemma same_sym a b : same_bytes a b -> same_bytes b a.
Proof. intros [R B]. split; [congruence|]. intros x. symmetry. apply B. Qed.
Lemma same_refl a : same_bytes a a.
Proof. split; reflexivity. Qed.
Lemma wf_regions m m' : regions m' = regions m -> wf_mem m = true -> wf_mem m' = true.
Proof. unfold wf_mem. intros ->. exact (fun H => H). Qed.

(** A successful call can be repeated any number of times: every repetition succeeds, and memory is as after the first. *)
Theorem C122_any_number : forall bld be t n m m1 x,
  wf_mem m = true -> task_typed t -> same_request t t -> perform bld be t m = (m1, x) ->
  (success x -> exists m', iter bld be (S n) t m = (m', true) /\ same_bytes m1 m') /\
  (~ success x -> iter bld be (S n) t m = (m1, false)).
Proof.
  intros bld be t n m m1 x W T Q E. split.
  - intros X. revert m m1 x W E X. induction n as [|n IH]; intros m m1 x W E X.
    + cbn [iter]. rewrite E. rewrite (proj2 (is_ok_success x) X). exists m1. split; [reflexivity|apply same_refl].
    + change (iter bld be (S (S n)) t m) with (let (m', x) := perform bld be t m in if is_ok x then iter bld be (S n) t m' else (m', false)).
      rewrite E, (proj2 (is_ok_success x) X). destruct (perform bld be t m1) as [m2 x2] eqn:E2.
      pose proof (C60_repeat _ _ _ _ _ _ _ _ W T Q E X E2) as (-> & R & B).
      assert (W1 : wf_mem m1 = true).
      { pose proof (C56_frame _ _ _ _ _ _ W T E) as [[R0 _] _]. apply (wf_regions m); [exact R0|exact W]. }
      destruct (IH _ _ _ W1 E2 X) as (m' & H & Sm). exists m'. split; [exact H|].
      apply (same_trans m1 m2 m'); [|exact Sm]. split; [symmetry; exact R|]. intros a. symmetry. apply B.
  - intros X. cbn [iter]. rewrite E. destruct (is_ok x) eqn:O; [|reflexivity]. apply is_ok_success in O. contradiction.
Qed.

(** Several benchmarks one after the other: the program gets to its end exactly if each call succeeds on the memory as it was at the
    beginning, whatever ran before it and however often. *)
Lemma iter_wf bld be t m n m' b : wf_mem m = true -> task_typed t -> iter bld be n t m = (m', b) -> regions m' = regions m.
Proof.
  intros W T. revert m W. induction n as [|n IH]; intros m W E; cbn [iter] in E; [injection E as <- _; reflexivity|].
  destruct (perform bld be t m) as [m1 x] eqn:P. pose proof (C56_frame _ _ _ _ _ _ W T P) as [[R _] _].
  destruct (is_ok x); [|injection E as <- _; exact R]. rewrite (IH m1 (wf_regions _ _ R W) E). exact R.
Qed.
Definition works (bld : build) (be : backend) (m : gmem) (b : nat * task) : Prop := fst b = O \/ success (snd (perform bld be (snd b) m)).
Theorem C122_each_alone : forall bld be l m,
  wf_mem m = true -> Forall task_typed (map snd l) -> Forall (fun t => same_request t t) (map snd l) ->
  (snd (bench_functions bld be l m) = true <-> Forall (works bld be m) l).
Proof.
  intros bld be l. assert (G : forall m0 m, regions m = regions m0 -> wf_mem m0 = true -> Forall task_typed (map snd l) -> Forall (fun t => same_request t t) (map snd l) ->
    (snd (bench_functions bld be l m) = true <-> Forall (works bld be m0) l)).
  { induction l as [|[n t] l IH]; intros m0 m R W T Q; cbn [bench_functions]; [split; [constructor|reflexivity]|].
    cbn [map snd] in T, Q. apply Forall_cons_iff in T. destruct T as [T T']. apply Forall_cons_iff in Q. destruct Q as [Q Q'].
    pose proof (wf_regions _ _ R W) as Wm. rewrite Forall_cons_iff. unfold works at 1. cbn [fst snd].
    destruct (iter bld be n t m) as [m' b] eqn:I. pose proof (iter_wf _ _ _ _ _ _ _ Wm T I) as R'.
    destruct n as [|n].
    { injection I as <- <-. rewrite (IH m0 m R W T' Q'). split; [intros H; split; [left; reflexivity|exact H]|intros [_ H]; exact H]. }
    destruct (perform bld be t m) as [m1 x] eqn:P. destruct (perform bld be t m0) as [m2 x2] eqn:P2. cbn [snd].
    pose proof (C57_contents_irrelevant _ _ _ _ _ _ _ _ _ (eq_sym R) P2 P) as (Ex & _). subst x2.
    destruct (C122_any_number bld be t n m m1 x Wm T Q P) as [A B].
    destruct (is_ok x) eqn:O.
    - apply is_ok_success in O. destruct (A O) as (m3 & I' & _). rewrite I in I'. injection I' as <- ->.
      rewrite (IH m0 m' (eq_trans R' R) W T' Q'). split; [intros H; split; [right; exact O|exact H]|intros [_ H]; exact H].
    - assert (NX : ~ success x) by (intros X; apply is_ok_success in X; congruence). rewrite (B NX) in I. injection I as <- <-. cbn [snd].
      split; [discriminate|]. intros [[Z|Z] _]; [discriminate Z|contradiction]. }
  intros m W T Q. apply G; auto.
Qed.

(** How often each was run leaves no trace in guest memory. *)
Definition once (b : nat * task) : nat * task := (Nat.min (fst b) 1, snd b).
Theorem C122_counts_leave_no_trace : forall bld be l m m1,
  wf_mem m = true -> Forall task_typed (map snd l) -> Forall (fun t => same_request t t) (map snd l) ->
  bench_functions bld be l m = (m1, true) ->
  exists m2, bench_functions bld be (map once l) m = (m2, true) /\ same_bytes m1 m2.
Proof.
  intros bld be l. assert (G : forall ma mb m1, same_bytes ma mb -> wf_mem ma = true -> Forall task_typed (map snd l) -> Forall (fun t => same_request t t) (map snd l) ->
    bench_functions bld be l ma = (m1, true) -> exists m2, bench_functions bld be (map once l) mb = (m2, true) /\ same_bytes m1 m2).
  { induction l as [|[n t] l IH]; intros ma mb m1 Sab W T Q E; cbn [bench_functions map] in *.
    { injection E as <-. exists mb. split; [reflexivity|exact Sab]. }
    apply Forall_cons_iff in T. destruct T as [T T']. apply Forall_cons_iff in Q. destruct Q as [Q Q']. cbn [once fst snd] in *.
    assert (Wb : wf_mem mb = true) by (apply (wf_regions ma); [symmetry; exact (proj1 Sab)|exact W]).
    destruct n as [|n].
    { cbn [iter] in *. change (Nat.min 0 1) with O. cbn [iter]. exact (IH ma mb m1 Sab W T' Q' E). }
    change (Nat.min (S n) 1) with (S (Nat.min n 0)). rewrite Nat.min_0_r.
    destruct (iter bld be (S n) t ma) as [k b] eqn:I. destruct b; [|discriminate E].
    destruct (perform bld be t ma) as [na x] eqn:Pa. destruct (perform bld be t mb) as [nb y] eqn:Pb.
    pose proof (C57_contents_irrelevant _ _ _ _ _ _ _ _ _ (proj1 Sab) Pa Pb) as (Ex & _ & SB). subst y.
    destruct (C122_any_number bld be t n ma na x W T Q Pa) as [A B].
    assert (O : success x).
    { destruct (is_ok x) eqn:O; [apply is_ok_success; exact O|]. rewrite B in I; [discriminate I|]. intros X. apply is_ok_success in X. congruence. }
    destruct (A O) as (k' & I' & Sk). rewrite I in I'. injection I' as <-.
    cbn [iter]. rewrite Pb, (proj2 (is_ok_success x) O).
    pose proof (iter_wf _ _ _ _ _ _ _ W T I) as Rk.
    assert (Snb : same_bytes k nb).
    { apply (same_trans k na nb); [apply same_sym; exact Sk|]. split.
      - pose proof (C56_frame _ _ _ _ _ _ W T Pa) as [[R1 _] _]. pose proof (C56_frame _ _ _ _ _ _ Wb T Pb) as [[R2 _] _].
        rewrite R1, R2. exact (proj1 Sab).
      - intros a. apply SB. apply (proj2 Sab). }
    exact (IH k nb m1 Snb (wf_regions _ _ Rk W) T' Q' E). }
  intros m m1. apply (G m m m1). apply same_refl.
Qed.

(** ** The benchmarks of the repository *)
Lemma cursor_typed f : lenN f < 2 ^ 63 -> wf_reader (cursor f).
Proof. intros H. split; [exact H|]. cbn. change (2 ^ 63) with 9223372036854775808 in H. change (2 ^ 64) with 18446744073709551616. lia. Qed.
Lemma bench_typed f : lenN f < 2 ^ 63 -> task_typed (LoadBz None None (cursor f)) /\ same_request (LoadBz None None (cursor f)) (LoadBz None None (cursor f)).
Proof.
  intros H. split.
  - split; [apply cursor_typed; exact H|]. split; [cbn; change (2 ^ 64) with 18446744073709551616; lia|discriminate].
  - cbn. split; [reflexivity|]. split; [reflexivity|]. intros _. assert (N : ~ short_reads (cursor f)).
    { intros [i X]. cbn in X. change (2 ^ 63) with 9223372036854775808 in H. change (2 ^ 64) with 18446744073709551616 in X. lia. }
    tauto.
Qed.
Theorem C122_arm_benchmark : forall bld be n, snd (bench_fdt bld be n) = true.
Proof.
  intros bld be n. unfold bench_fdt. apply C122_each_alone.
  - reflexivity.
  - cbn. repeat constructor.
  - constructor; [split; reflexivity|constructor].
  - constructor; [|constructor]. right. apply is_ok_success. cbn [snd]. destruct be; vm_compute; reflexivity.
Qed.
(** The benchmarks for PCs, with an image for the third one (feature bzimage) or without: they get to the end exactly if the image
    is one (C34) whose payload fits into the memory, or is not loaded at all. *)
Theorem C122_pc_benchmarks : forall bld be n1 n2, snd (bench_x86_64 bld be n1 n2 None) = true.
Proof.
  intros bld be n1 n2. unfold bench_x86_64. apply C122_each_alone.
  - reflexivity.
  - constructor; [cbn [snd task_typed]; apply cursor_typed; vm_compute; reflexivity|]. repeat constructor.
  - constructor; [split; reflexivity|]. constructor; [reflexivity|constructor].
  - constructor; [|constructor; [|constructor]]; right; apply is_ok_success; cbn [snd]; destruct bld, be; vm_compute; reflexivity.
Qed.
Theorem C122_bzimage_benchmark : forall bld be n1 n2 f n3, lenN f < 2 ^ 63 ->
  (snd (bench_x86_64 bld be n1 n2 (Some (f, n3))) = true <->
   n3 = O \/
   (bz_header_good f /\ bz_setup_size f <= lenN f /\ dest_ok be create_guest_memory (bz_load_addr f None) (lenN f - bz_setup_size f))).
Proof.
  intros bld be n1 n2 f n3 Hf. destruct (bench_typed f Hf) as [Tf Qf]. unfold bench_x86_64. rewrite C122_each_alone.
  - cbn [app]. rewrite !Forall_cons_iff.
    assert (H1 : forall n, works bld be create_guest_memory (n, LoadElf None None (cursor test_elfnote_bin))).
    { intros n. right. apply is_ok_success. cbn [snd]. destruct bld, be; vm_compute; reflexivity. }
    assert (H2 : forall n, works bld be create_guest_memory (n, WritePvh build_pvh_boot_params)).
    { intros n. right. apply is_ok_success. cbn [snd]. destruct bld, be; vm_compute; reflexivity. }
    enough (X : success (snd (perform bld be (LoadBz None None (cursor f)) create_guest_memory)) <->
       (bz_header_good f /\ bz_setup_size f <= lenN f /\ dest_ok be create_guest_memory (bz_load_addr f None) (lenN f - bz_setup_size f))).
    { unfold works at 3. cbn [fst snd]. rewrite X. split; [intros (_ & _ & Z & _); exact Z|].
      intros Z. split; [apply H1|]. split; [apply H2|]. split; [exact Z|constructor]. }
    cbn [perform]. destruct (bz_load be None None (cursor f) create_guest_memory) as [[r' m'] o] eqn:E. cbn [snd].
    assert (Runs : bz_runs be None None (cursor f) create_guest_memory m' o).
    { destruct Tf as (A & B & C). split; [exact A|]. split; [exact B|]. split; [reflexivity|]. split; [exact C|]. exists r'. exact E. }
    assert (NS : ~ short_or_fault (cursor f)).
    { destruct Qf as (_ & _ & Z). destruct (Z eq_refl) as [Z1 _]. intros [(k & i & Y)|Y]; [discriminate Y|contradiction]. }
    pose proof (C34_bz_accepts_iff _ _ _ _ _ _ _ Runs NS) as A. cbn beta zeta in A. change (rd_data (cursor f)) with f in A.
    assert (SO : success (Loaded o) <-> exists res, o = Ok res).
    { unfold success. split; [intros [(res & Z)|[Z|Z]]; try discriminate Z; injection Z as ->; exists res; reflexivity|].
      intros (res & ->). left. exists res. reflexivity. }
    rewrite SO, A. split.
    + intros (B1 & B2 & _ & B4). split; [exact B1|]. split; [exact B2|]. unfold bz_payload in B4. rewrite part_len in B4; [exact B4|].
      rewrite N.add_comm, N.sub_add by exact B2. apply N.le_refl.
    + intros (B1 & B2 & B4). split; [exact B1|]. split; [exact B2|]. split; [exact I|]. unfold bz_payload. rewrite part_len; [exact B4|].
      rewrite N.add_comm, N.sub_add by exact B2. apply N.le_refl.
  - reflexivity.
  - constructor; [cbn [snd task_typed]; apply cursor_typed; vm_compute; reflexivity|]. constructor; [exact I|]. constructor; [exact Tf|constructor].
  - constructor; [split; reflexivity|]. constructor; [reflexivity|]. constructor; [exact Qf|constructor].
Qed.

(** What the PC benchmarks leave behind, however often they run: the start info and the memory map, as a guest would read them. *)
Theorem C122_pc_leaves : forall bld be n1 n2, exists m', bench_x86_64 bld be (S n1) (S n2) None = (m', true) /\
  let si := peek m' 0x6000 (N.to_nat (size hvm_start_info)) in let e := peek m' 0x7000 (N.to_nat (size hvm_memmap_table_entry)) in
  Layout.get hvm_start_info [Fld "magic"] si = 0x336ec578 /\ Layout.get hvm_start_info [Fld "version"] si = 1 /\
  Layout.get hvm_start_info [Fld "memmap_paddr"] si = 0x7000 /\ Layout.get hvm_start_info [Fld "nr_modules"] si = 0 /\
  Layout.get hvm_start_info [Fld "memmap_entries"] si = 0 /\
  Layout.get hvm_memmap_table_entry [Fld "addr"] e = 0x7000 /\ Layout.get hvm_memmap_table_entry [Fld "size"] e = 0 /\
  Layout.get hvm_memmap_table_entry [Fld "type_"] e = 1 /\ Layout.get hvm_memmap_table_entry [Fld "reserved"] e = 0 /\
  (** the kernel, ELF file of the repository: as many bytes of it as its one segment has *)
  (forall x, ~ (0x6000 <= x < 0x6000 + size hvm_start_info) -> ~ (0x7000 <= x < 0x7000 + size hvm_memmap_table_entry) ->
     gm_byte m' x = gm_byte (fst (perform bld be (LoadElf None None (cursor test_elfnote_bin)) create_guest_memory)) x).
Proof.
  intros bld be n1 n2. pose proof (C122_pc_benchmarks bld be (S n1) (S n2)) as A. unfold bench_x86_64 in *. cbn [app] in *.
  destruct (bench_functions bld be _ create_guest_memory) as [m' b] eqn:E. cbn [snd] in A. subst b. exists m'. split; [reflexivity|].
  apply C122_counts_leave_no_trace in E.
  - destruct E as (m2 & E & _ & B). assert (O : forall n t, once (S n, t) = (1%nat, t)) by (intros n t; unfold once; cbn [fst snd]; f_equal; lia).
    cbn [map] in E. rewrite !O in E.
    assert (P : forall a n, peek m' a n = peek m2 a n) by (intros a n; unfold peek; apply map_ext; intros i; apply B).
    cbn zeta. rewrite !P.
    assert (L : forall x, ~ (0x6000 <= x < 0x6000 + size hvm_start_info) -> ~ (0x7000 <= x < 0x7000 + size hvm_memmap_table_entry) ->
       gm_byte m2 x = gm_byte (fst (perform bld be (LoadElf None None (cursor test_elfnote_bin)) create_guest_memory)) x).
    { clear - E. cbn [bench_functions iter] in E.
      destruct (perform bld be (LoadElf None None (cursor test_elfnote_bin)) create_guest_memory) as [ma xa] eqn:Ea. cbn [fst].
      destruct (is_ok xa); [|discriminate E]. destruct (perform bld be (WritePvh build_pvh_boot_params) ma) as [mb xb] eqn:Eb.
      assert (mb = m2) as -> by (destruct (is_ok xb); congruence).
      assert (Wa : wf_mem ma = true).
      { apply (wf_regions create_guest_memory); [|reflexivity].
        assert (T : task_typed (LoadElf None None (cursor test_elfnote_bin))) by (cbn [task_typed]; apply cursor_typed; vm_compute; reflexivity).
        exact (proj1 (proj1 (C56_frame bld be _ create_guest_memory _ _ (eq_refl true) T Ea))). }
      pose proof (C56_frame bld be (WritePvh build_pvh_boot_params) _ _ _ Wa Logic.I Eb) as [[_ F] _].
      intros x X Y. apply F. intros (s & Hs & R).
      unfold pvh_areas in Hs. vm_compute in Hs. destruct Hs as [<-|[<-|[]]]; cbn [fst snd] in R;
        unfold in_range in R; [apply Y|apply X]; revert R; vm_compute lenN; vm_compute size; lia. }
    assert (M : m2 = fst (bench_functions bld be [(1%nat, LoadElf None None (cursor test_elfnote_bin)); (1%nat, WritePvh build_pvh_boot_params)] create_guest_memory))
      by (rewrite E; reflexivity).
    assert (B0 : forall x, gm_byte m' x = gm_byte m2 x) by exact B.
    revert L. intros L. repeat match goal with |- _ /\ _ => split end;
      [..|intros x X Y; rewrite B0; exact (L x X Y)]; rewrite M; clear; destruct bld, be; vm_compute; reflexivity.
  - reflexivity.
  - constructor; [cbn [snd task_typed]; apply cursor_typed; vm_compute; reflexivity|]. repeat constructor.
  - constructor; [split; reflexivity|]. constructor; [reflexivity|constructor].
Qed.

(** The demonstration image can be benchmarked when it is to go to 1 MiB, and an empty file cannot; the device tree may not be put one byte further up. *)
Definition some_bz : bytes := patch demo_bz 0x214 (le_enc 4 0x100000).
Example C122_applies : forall bld be n1 n2 n3,
  snd (bench_x86_64 bld be n1 n2 (Some (some_bz, n3))) = true /\
  snd (bench_x86_64 bld be n1 n2 (Some (zeros 2000, S n3))) = false /\
  snd (bench_x86_64 bld be n1 n2 (Some (zeros 2000, O))) = true /\
  snd (bench_functions bld be [(S n1, WriteFdt (bp_new (zeros FDT_MAX_SIZE) (MEM_SIZE - FDT_MAX_SIZE)))] create_guest_memory) = false.
Proof.
  intros bld be n1 n2 n3. split; [|split; [|split]].
  - apply C122_bzimage_benchmark; [vm_compute; reflexivity|]. right. split; [split; [vm_compute; reflexivity|split; [vm_compute; discriminate|vm_compute; reflexivity]]|]. split; [vm_compute; discriminate|].
    replace (bz_load_addr some_bz None) with 0x100000 by (vm_compute; reflexivity). replace (lenN some_bz - bz_setup_size some_bz) with 8 by (vm_compute; reflexivity).
    split; [|discriminate]. intros x X1 X2. exists (mkRegion 0 MEM_SIZE). split; [left; reflexivity|]. unfold MEM_SIZE. cbn [r_base r_len]. lia.
  - apply Bool.not_true_is_false. rewrite C122_bzimage_benchmark by (vm_compute; reflexivity). intros [H|[(H & _) _]]; [discriminate H|vm_compute in H; discriminate H].
  - apply C122_bzimage_benchmark; [vm_compute; reflexivity|]. left. reflexivity.
  - apply Bool.not_true_is_false. rewrite C122_each_alone.
    + intros H. apply Forall_inv in H. destruct H as [H|H]; [discriminate H|]. apply is_ok_success in H. revert H. destruct be; vm_compute; discriminate.
    + reflexivity.
    + repeat constructor.
    + repeat constructor.
Qed.
