(** * Props_Routes: the way data takes into the guest does not matter (C112).

    The crate offers several ways to hand the same bytes to the guest: a device tree can be given as a
    file ([load_dtb]) or as boot parameters ([FdtBootConfigurator]); a structure can be written by the
    Linux or by the FDT configurator.  Vocabulary: SpecVmm.v, SpecMem.v ([mem_same]). *)
From Verif Require Import Base Base_proofs Io Mem SpecMem Mem_proofs SpecFile File_proofs Text Cmdline SpecCmdline Loader Elf SpecElf
  BzImage SpecBz Bz_proofs Pe SpecPe Pe_proofs BootParams Configurators SpecBoot Elf_proofs2 Demo_elf
  Props_Loader Props_Elf Props_Bz Props_Pe Props_Config SpecVmm Vmm_proofs Sim_proofs Props_Vmm.
Local Open Scope list_scope.

(** Two successful calls that put the same pieces in the same order leave the same guest memory. *)
Theorem C112_same_pieces : forall bld be bld' be' t u m m1 m2 x y,
  wf_mem m = true -> task_typed t -> task_typed u ->
  perform bld be t m = (m1, x) -> success x -> perform bld' be' u m = (m2, y) -> success y ->
  writes t x = writes u y -> mem_same m1 m2.
Proof.
  intros bld be bld' be' t u m m1 m2 x y Hw Ht Hu Ex Hx Ey Hy Hwr.
  destruct (C56_success_writes _ _ _ _ _ _ Hw Ht Ex Hx) as (R1 & B1).
  destruct (C56_success_writes _ _ _ _ _ _ Hw Hu Ey Hy) as (R2 & B2).
  split; [congruence|]. intros a. rewrite B1, B2, Hwr. reflexivity.
Qed.

(** A whole program does not notice in which of these ways one of its steps was done. *)
Lemma perform_same : forall bld be t m1 m2 m1' m2' x1 x2,
  mem_same m1 m2 -> perform bld be t m1 = (m1', x1) -> perform bld be t m2 = (m2', x2) ->
  x1 = x2 /\ mem_same m1' m2'.
Proof.
  intros bld be t m1 m2 m1' m2' x1 x2 (Hr & Hb) H1 H2.
  destruct (perform_blind bld be t (regions m1)) as (a & segs & H).
  destruct (H m1 eq_refl) as (n1 & E1 & ((R1 & B1) & _)). destruct (H m2 Hr) as (n2 & E2 & ((R2 & B2) & _)).
  rewrite H1 in E1. rewrite H2 in E2. injection E1 as -> ->. injection E2 as -> ->.
  split; [reflexivity|]. split; [congruence|]. intros y. rewrite B1, B2. apply overlay_ext. exact Hb.
Qed.
Lemma perform_all_same : forall bld be ts m1 m2 m1' m2' xs1 xs2,
  mem_same m1 m2 -> perform_all bld be ts m1 = (m1', xs1) -> perform_all bld be ts m2 = (m2', xs2) ->
  xs1 = xs2 /\ mem_same m1' m2'.
Proof.
  intros bld be ts. induction ts as [|t ts IH]; intros m1 m2 m1' m2' xs1 xs2 Hs H1 H2; cbn [perform_all] in *.
  - injection H1 as <- <-. injection H2 as <- <-. auto.
  - destruct (perform bld be t m1) as [n1 x1] eqn:E1. destruct (perform_all bld be ts n1) as [k1 ys1] eqn:F1.
    destruct (perform bld be t m2) as [n2 x2] eqn:E2. destruct (perform_all bld be ts n2) as [k2 ys2] eqn:F2.
    injection H1 as <- <-. injection H2 as <- <-.
    destruct (perform_same _ _ _ _ _ _ _ _ _ Hs E1 E2) as (-> & Hn).
    destruct (IH _ _ _ _ _ _ Hn F1 F2) as (-> & Hk). auto.
Qed.

Theorem C112_whole_program : forall bld be pre t u post m m1 m2 xs ys x y,
  wf_mem m = true -> Forall task_typed pre -> task_typed t -> task_typed u ->
  perform_all bld be (pre ++ t :: post) m = (m1, xs) -> perform_all bld be (pre ++ u :: post) m = (m2, ys) ->
  nth_error xs (length pre) = Some x -> nth_error ys (length pre) = Some y -> success x -> success y ->
  writes t x = writes u y ->
  mem_same m1 m2 /\
  (forall i, i <> length pre -> nth_error xs i = nth_error ys i).
Proof.
  intros bld be pre t u post m m1 m2 xs ys x y Hw Hpre Ht Hu H1 H2 Hx Hy Sx Sy Hwr.
  rewrite perform_all_app in H1, H2. destruct (perform_all bld be pre m) as [n zs] eqn:E0.
  destruct (perform_all_frame _ _ _ _ _ _ Hw Hpre E0) as (Hwn & _).
  pose proof (perform_all_length _ _ _ _ _ _ E0) as Hlen. cbn [perform_all] in H1, H2.
  destruct (perform bld be t n) as [a1 x1] eqn:E1. destruct (perform_all bld be post a1) as [k1 ps1] eqn:F1.
  destruct (perform bld be u n) as [a2 x2] eqn:E2. destruct (perform_all bld be post a2) as [k2 ps2] eqn:F2.
  injection H1 as <- <-. injection H2 as <- <-.
  rewrite nth_error_app2 in Hx, Hy by lia. replace (length pre - length zs)%nat with O in Hx, Hy by lia.
  cbn in Hx, Hy. injection Hx as ->. injection Hy as ->.
  pose proof (C112_same_pieces _ _ _ _ _ _ _ _ _ _ _ Hwn Ht Hu E1 Sx E2 Sy Hwr) as Hs.
  destruct (perform_all_same _ _ _ _ _ _ _ _ _ Hs F1 F2) as (-> & Hk). split; [exact Hk|].
  intros i Hi. destruct (Nat.lt_ge_cases i (length zs)) as [L|L].
  - now rewrite !nth_error_app1 by exact L.
  - rewrite !nth_error_app2 by exact L. destruct (i - length zs)%nat as [|j] eqn:Ej; [lia|reflexivity].
Qed.

(** ** A device tree: as a file or as boot parameters.
    Same guest memory if both work; the file route refuses trees over 2 MiB, the boot parameter route
    refuses trees that end exactly where memory ends, and otherwise they accept the same. *)
Theorem C112_device_tree : forall bld be m r p m1 m2 x y,
  wf_mem m = true -> wf_reader r -> ~ io_trouble be r -> rd_data r = header p ->
  let t := LoadDtb (header_start p) r in
  let n := lenN (header p) in
  perform bld be t m = (m1, x) -> perform bld be (WriteFdt p) m = (m2, y) ->
  (success x -> success y -> mem_same m1 m2 /\ holds_at m1 (header_start p) (header p)) /\
  (success x -> n <= 2 * 1024 * 1024 /\ (success y <-> backed m (header_start p + n))) /\
  (success y -> (success x <-> n <= 2 * 1024 * 1024)).
Proof.
  intros bld be m r p m1 m2 x y Hw Hr Hq Hd t n Ex Ey.
  assert (Ht : task_typed t) by exact Hr.
  assert (Sx : success x <-> n <= 2 * 1024 * 1024 /\ dest_ok be m (header_start p) n).
  { cbn [perform t] in Ex. destruct (load_dtb be (header_start p) r m) as [[r' m'] o] eqn:E. injection Ex as <- <-.
    assert (D : dtb_runs be (header_start p) r m m' o) by (split; [exact Hr|split; [exact Hw|eauto]]).
    pose proof (C42_dtb_accepts_iff _ _ _ _ _ _ D Hq) as Hi. rewrite Hd in Hi. unfold n. rewrite <- Hi.
    split; [intros [[? ?]|[A|?]]; congruence|intros ->; right; left; reflexivity]. }
  assert (Sy : success y <-> range_backed m (header_start p) (n + 1)).
  { cbn [perform] in Ey. destruct (fdt_write_bootparams be p m) as [m' o] eqn:E. injection Ey as <- <-.
    destruct (C43_fdt_write be p m m' o Hw E) as (_ & Hi & _). unfold n. rewrite <- Hi.
    split; [intros [[? ?]|[?|A]]; congruence|intros ->; right; right; reflexivity]. }
  assert (Hmore : range_backed m (header_start p) (n + 1) <-> range_backed m (header_start p) n /\ backed m (header_start p + n)).
  { split.
    - intros H. split; [intros a A B; apply H; lia|apply H; lia].
    - intros [H L] a A B. destruct (N.eq_dec a (header_start p + n)) as [->|Hne]; [exact L|apply H; lia]. }
  split; [|split].
  - intros A B. assert (Hwr : writes t x = writes (WriteFdt p) y).
    { destruct A as [[? ->]|[->| ->]]; cbn [perform t] in Ex;
        destruct (load_dtb be (header_start p) r m) as [[? ?] ?]; try discriminate.
      destruct B as [[? ->]|[->| ->]]; cbn [perform] in Ey;
        destruct (fdt_write_bootparams be p m) as [? ?]; try discriminate. cbn. now rewrite Hd. }
    assert (Hu : task_typed (WriteFdt p)) by exact Logic.I.
    pose proof (C112_same_pieces _ _ _ _ _ _ _ _ _ _ _ Hw Ht Hu Ex A Ey B Hwr) as Hs. split; [exact Hs|].
    cbn [perform t] in Ex. destruct (load_dtb be (header_start p) r m) as [[r' m'] o] eqn:E. injection Ex as <- <-.
    assert (o = Ok tt) as -> by (destruct A as [[? ?]|[A|?]]; congruence).
    assert (D : dtb_runs be (header_start p) r m m' (Ok tt)) by (split; [exact Hr|split; [exact Hw|eauto]]).
    rewrite <- Hd. exact (proj2 (proj2 (proj2 (C42_dtb_ok _ _ _ _ _ D)))).
  - intros A. apply Sx in A as (L & (Hb & _)). split; [exact L|]. rewrite Sy, Hmore. tauto.
  - intros B. apply Sy in B. apply Hmore in B as (Hb & L). rewrite Sx. split; [tauto|]. intros A. split; [exact A|].
    split; [exact Hb|]. intros E0 _. rewrite E0, N.add_0_r in L. exact L.
Qed.

(** ** The Linux and the FDT configurator differ in the error they report only. *)
Theorem C112_linux_fdt : forall be p m m1 m2 o1 o2,
  wf_mem m = true -> linux_write_bootparams be p m = (m1, o1) -> fdt_write_bootparams be p m = (m2, o2) ->
  mem_same m1 m2 /\
  (o1 = Ok tt <-> o2 = Ok tt) /\
  (o1 = Err (BLinux ZeroPagePastRamEnd) <-> o2 = Err (BFdt FDTPastRamEnd)) /\
  (o1 = Err (BLinux ZeroPageSetup) <-> o2 = Err (BFdt WriteFDTToMemory)).
Proof.
  intros be p m m1 m2 o1 o2 Hw H1 H2.
  destruct (C43_linux_write be p m m1 o1 Hw H1) as (_ & A1 & B1 & _ & D1 & _).
  destruct (C43_fdt_write be p m m2 o2 Hw H2) as (_ & A2 & B2 & _ & D2 & _).
  split; [|rewrite A1, A2, B1, B2, D1, D2; tauto].
  unfold linux_write_bootparams, fdt_write_bootparams, check_and_write in *.
  destruct (checked_offset m (header_start p) (lenN (header p))).
  - destruct (write_slice be m (header p) (header_start p)) as [k []]; injection H1 as <- <-; injection H2 as <- <-; split; reflexivity.
  - injection H1 as <- <-. injection H2 as <- <-. split; reflexivity.
Qed.

(** ** Cases: in the middle of memory both work; at the very end only the file does. *)
Definition route_params (a : N) : boot_info := mkBoot [xd0; x0d; xfe; xed] a None None None None.
Example C112_both : forall be,
  ~ io_trouble be (plain_reader [xd0; x0d; xfe; xed]) /\ wf_reader (plain_reader [xd0; x0d; xfe; xed]) /\ wf_mem cfg_mem = true /\
  exists m1 m2, perform true be (LoadDtb 0xffe (plain_reader [xd0; x0d; xfe; xed])) cfg_mem = (m1, Done (Ok tt)) /\
    perform true be (WriteFdt (route_params 0xffe)) cfg_mem = (m2, Written (Ok tt)) /\
    peek m1 0xffd 6 = [xff; xd0; x0d; xfe; xed; xff] /\ peek m2 0xffd 6 = [xff; xd0; x0d; xfe; xed; xff].
Proof.
  intros be. split; [apply plain_quiet; reflexivity|]. split; [apply plain_wf; reflexivity|].
  split; [reflexivity|]. destruct be; (do 2 eexists; repeat split; vm_compute; reflexivity).
Qed.
Example C112_only_file : forall be, exists m1,
  perform true be (LoadDtb 0x3ffc (plain_reader [xd0; x0d; xfe; xed])) cfg_mem = (m1, Done (Ok tt)) /\
  perform true be (WriteFdt (route_params 0x3ffc)) cfg_mem = (cfg_mem, Written (Err (BFdt FDTPastRamEnd))).
Proof. intros []; (eexists; split; vm_compute; reflexivity). Qed.
Definition big_mem : gmem := mkMem [mkRegion 0 0x400000] (fun _ => xff).
Example C112_only_params : forall be, exists m2,
  perform true be (LoadDtb 0x1000 (plain_reader (zeros 0x200001))) big_mem = (big_mem, Done (Err (LPe DtbTooBig))) /\
  perform true be (WriteFdt (mkBoot (zeros 0x200001) 0x1000 None None None None)) big_mem = (m2, Written (Ok tt)).
Proof.
  intros be. destruct (fdt_write_bootparams be (mkBoot (zeros 0x200001) 0x1000 None None None None) big_mem) as [m2 o] eqn:E.
  exists m2. split.
  - cbn [perform]. destruct (load_dtb be 0x1000 (plain_reader (zeros 0x200001)) big_mem) as [[r' m'] o'] eqn:E'.
    assert (L : lenN (rd_data (plain_reader (zeros 0x200001))) = 0x200001) by (cbn [rd_data plain_reader]; apply lenN_zeros).
    assert (D : dtb_runs be 0x1000 (plain_reader (zeros 0x200001)) big_mem m' o').
    { split; [apply plain_wf; rewrite lenN_zeros; reflexivity|split; [reflexivity|eauto]]. }
    destruct (C42_dtb_too_big _ _ _ _ _ _ D) as (-> & _ & H3); [rewrite L; lia|].
    rewrite H3; [reflexivity|apply plain_quiet]. rewrite lenN_zeros. reflexivity.
  - cbn [perform]. rewrite E. f_equal. f_equal. apply (C43_fdt_write be _ _ _ _ (eq_refl : wf_mem big_mem = true) E).
    cbn [header header_start]. rewrite lenN_zeros. intros x A B. exists (mkRegion 0 0x400000). cbn. split; [left; reflexivity|lia].
Qed.
