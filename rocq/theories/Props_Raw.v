(** * Props_Raw: interrupted, short and failing [read] calls (C74, C75).

    The raw source of RawIo.v answers every single [read] call by itself: interrupted (EINTR), failed,
    or some of the bytes.  [gelf_load raw_source] and so on is the loader's code over that source (Source.v). *)
From Verif Require Import Base Base_proofs Io Mem SpecMem Layout Loader Elf BzImage Pe SpecFile SpecElf SpecBz SpecPe File_proofs Text Cmdline BootParams Configurators
  SpecVmm Source RawIo Raw_proofs Demo_elf Props_Elf Props_Bz Props_Pe Props_Vmm Props_Env.

(** A call of the crate whose image comes from a raw source. *)
Inductive raw_task :=
| RawElf (off highmem : option N) (s : raw)
| RawBz (off highmem : option N) (s : raw)
| RawPe (a : arch) (off highmem : option N) (s : raw)
| RawDtb (addr : N) (s : raw)
| RawOther (t : task).    (* calls that read no image, or one as in Io.v *)

Definition raw_perform (bld : build) (be : backend) (t : raw_task) (m : gmem) : gmem * report :=
  match t with
  | RawElf off h s => match gelf_load raw_source bld be off h s m with (_, m', o) => (m', Loaded o) end
  | RawBz off h s => match gbz_load raw_source be off h s m with (_, m', o) => (m', Loaded o) end
  | RawPe a off h s => match gpe_load raw_source a be off h s m with (_, m', o) => (m', Loaded o) end
  | RawDtb addr s => match gload_dtb raw_source be addr s m with (_, m', o) => (m', Done o) end
  | RawOther t => perform bld be t m
  end.
Fixpoint raw_perform_all (bld : build) (be : backend) (ts : list raw_task) (m : gmem) : gmem * list report :=
  match ts with
  | [] => (m, [])
  | t :: ts' =>
      let (m1, x) := raw_perform bld be t m in
      let (m2, xs) := raw_perform_all bld be ts' m1 in (m2, x :: xs)
  end.

(** [u] is the same call on a source in the sense of Io.v, of the same bytes at the same position.  That source fails
    only if the raw one does (bzImage: or is interrupted), and cuts reads short only if the raw one does. *)
Definition stand_in_for (t : raw_task) (u : task) : Prop :=
  match t with
  | RawElf off h s => exists r, u = LoadElf off h r /\ stand_in s (raw_fails s) r
  | RawBz off h s => exists r, u = LoadBz off h r /\ stand_in s (raw_fails s \/ raw_interrupts s) r
  | RawPe a off h s => exists r, u = LoadPe a off h r /\ stand_in s (raw_fails s) r
  | RawDtb addr s => exists r, u = LoadDtb addr r /\ stand_in s (raw_fails s) r
  | RawOther t => u = t
  end.

(** ** The loops are the loops they are meant to be. *)
Theorem C74_read_exact_loop : forall s n, raw_read_exact s n =
  if n =? 0 then (s, Some [])
  else match raw_read s n with
       | (s', Interrupted) => raw_read_exact s' n
       | (s', Failed) => (s', None)
       | (s', Got []) => (s', None)
       | (s', Got bs) =>
           match raw_read_exact s' (n - lenN bs) with
           | (s'', Some rest) => (s'', Some (bs ++ rest))
           | (s'', None) => (s'', None)
           end
       end.
Proof. exact read_exact_loop. Qed.
Theorem C74_retry_loop : forall s n, raw_retry s n =
  match raw_read s n with
  | (s', Interrupted) => raw_retry s' n
  | (s', Failed) => (s', None)
  | (s', Got bs) => (s', Some bs)
  end.
Proof. exact retry_loop. Qed.

(** ** C74: whatever a source does to single read calls, some source of Io.v does to whole operations:
    the same report and the very same guest memory. *)
Theorem C74_stand_in : forall bld be t m m' x, raw_perform bld be t m = (m', x) ->
  exists u, stand_in_for t u /\ perform bld be u m = (m', x).
Proof.
  intros bld be t m m' x H.
  set (B1 := fun sc : nat -> nat * answer => exists i, snd (sc i) = Fails).
  set (B2 := fun sc : nat -> nat * answer => (exists i, snd (sc i) = Fails) \/ exists i, (0 < fst (sc i))%nat).
  destruct t as [off h s|off h s|a off h s|addr s|t]; cbn [raw_perform] in H.
  - destruct (gelf_load raw_source bld be off h s m) as [[s' m1] o] eqn:E. injection H as <- <-.
    destruct (mimics_use B1 _ _ _ _ _ _ _ (mimics_elf B1 (fun sc i Hi => ex_intro _ i Hi) bld be off h) E) as (r & r' & Hr & Q).
    exists (LoadElf off h r). split; [exists r; split; [reflexivity|exact Hr]|]. cbn [perform]. rewrite gelf_load_reader in Q. rewrite Q. reflexivity.
  - destruct (gbz_load raw_source be off h s m) as [[s' m1] o] eqn:E. injection H as <- <-.
    destruct (mimics_use B2 _ _ _ _ _ _ _ (mimics_bz B2 (fun sc i Hi => or_introl (ex_intro _ i Hi)) (fun sc i Hi => or_intror (ex_intro _ i Hi)) be off h) E) as (r & r' & Hr & Q).
    exists (LoadBz off h r). split; [exists r; split; [reflexivity|exact Hr]|]. cbn [perform]. rewrite gbz_load_reader in Q. rewrite Q. reflexivity.
  - destruct (gpe_load raw_source a be off h s m) as [[s' m1] o] eqn:E. injection H as <- <-.
    destruct (mimics_use B1 _ _ _ _ _ _ _ (mimics_pe B1 (fun sc i Hi => ex_intro _ i Hi) a be off h) E) as (r & r' & Hr & Q).
    exists (LoadPe a off h r). split; [exists r; split; [reflexivity|exact Hr]|]. cbn [perform]. rewrite gpe_load_reader in Q. rewrite Q. reflexivity.
  - destruct (gload_dtb raw_source be addr s m) as [[s' m1] o] eqn:E. injection H as <- <-.
    destruct (mimics_use B1 _ _ _ _ _ _ _ (mimics_dtb B1 (fun sc i Hi => ex_intro _ i Hi) be addr) E) as (r & r' & Hr & Q).
    exists (LoadDtb addr r). split; [exists r; split; [reflexivity|exact Hr]|]. cbn [perform]. rewrite gload_dtb_reader in Q. rewrite Q. reflexivity.
  - exists t. split; [reflexivity|exact H].
Qed.

Theorem C74_histories : forall bld be ts m m' xs, raw_perform_all bld be ts m = (m', xs) ->
  exists us, Forall2 stand_in_for ts us /\ perform_all bld be us m = (m', xs).
Proof.
  intros bld be ts. induction ts as [|t ts IH]; intros m m' xs H; cbn [raw_perform_all] in H.
  - injection H as <- <-. exists []. split; [constructor|reflexivity].
  - destruct (raw_perform bld be t m) as [m1 x] eqn:E1. destruct (raw_perform_all bld be ts m1) as [m2 ys] eqn:E2. injection H as <- <-.
    destruct (C74_stand_in _ _ _ _ _ _ E1) as (u & Hu & Q1). destruct (IH _ _ _ E2) as (us & Hus & Q2).
    exists (u :: us). split; [constructor; assumption|]. cbn [perform_all]. rewrite Q1, Q2. reflexivity.
Qed.

(** ** C75: interruptions are invisible.  Two sources that give the same answers, each interrupted in its own way. *)
Theorem C75_interruptions_invisible : forall bld be s1 s2 m, alike s1 s2 ->
  (forall off h, raw_perform bld be (RawElf off h s1) m = raw_perform bld be (RawElf off h s2) m) /\
  (forall a off h, raw_perform bld be (RawPe a off h s1) m = raw_perform bld be (RawPe a off h s2) m) /\
  (forall addr, raw_perform bld be (RawDtb addr s1) m = raw_perform bld be (RawDtb addr s2) m) /\
  (header_uninterrupted s1 -> header_uninterrupted s2 ->
   forall off h, raw_perform bld be (RawBz off h s1) m = raw_perform bld be (RawBz off h s2) m).
Proof.
  intros bld be s1 s2 m A. cbn [raw_perform]. split; [|split; [|split]].
  - intros off h. destruct (agrees_elf bld be off h s1 s2 m A) as (H1 & H2 & _).
    destruct (gelf_load raw_source bld be off h s1 m) as [[? ?] ?], (gelf_load raw_source bld be off h s2 m) as [[? ?] ?]. cbn in *. congruence.
  - intros a off h. destruct (agrees_pe a be off h s1 s2 m A) as (H1 & H2 & _).
    destruct (gpe_load raw_source a be off h s1 m) as [[? ?] ?], (gpe_load raw_source a be off h s2 m) as [[? ?] ?]. cbn in *. congruence.
  - intros addr. destruct (agrees_dtb be addr s1 s2 m A) as (H1 & H2 & _).
    destruct (gload_dtb raw_source be addr s1 m) as [[? ?] ?], (gload_dtb raw_source be addr s2 m) as [[? ?] ?]. cbn in *. congruence.
  - intros I1 I2 off h. destruct (agrees_bz be off h s1 s2 m A I1 I2) as (H1 & H2 & _).
    destruct (gbz_load raw_source be off h s1 m) as [[? ?] ?], (gbz_load raw_source be off h s2 m) as [[? ?] ?]. cbn in *. congruence.
Qed.

(** A bzImage load whose header read is interrupted fails there (the code does not retry), touching nothing. *)
Theorem C75_bz_header_not_retried : forall bld be off h s m,
  snd (rw_script s (rw_ops s)) <> Fails -> snd (rw_script s (rw_ops s + 1)) <> Fails -> 0x1f1 <= rw_maxpos s ->
  ~ header_uninterrupted s ->
  raw_perform bld be (RawBz off h s) m = (m, Loaded (Err (LBz ReadBzImageHeader))).
Proof.
  intros bld be off h s m H0 H1 Hm Hi. unfold header_uninterrupted in Hi. cbn [raw_perform]. unfold gbz_load, gbind at 1, gio at 1.
  cbn [so_seek_end raw_source]. unfold raw_seek_end, raw_seek. destruct (snd (rw_script s (rw_ops s))); [congruence|].
  unfold gbind at 1, gio at 1. cbn [so_seek_start raw_source]. unfold raw_seek_start, raw_seek. cbn [answered rw_script rw_ops rw_maxpos].
  replace (S (rw_ops s)) with (rw_ops s + 1)%nat by lia. destruct (snd (rw_script s (rw_ops s + 1))); [congruence|].
  rewrite (proj2 (N.leb_le _ _)) by exact Hm. unfold gbind at 1, gio at 1, gread_header. cbn [so_read_volatile raw_source].
  unfold raw_once, raw_read. cbn [answered rw_script rw_ops rw_intr]. replace (S (S (rw_ops s))) with (rw_ops s + 2)%nat by lia.
  destruct (rw_script s (rw_ops s + 2)) as [i a]. cbn [fst] in Hi. rewrite (proj2 (Nat.ltb_lt 0 i)) by lia. reflexivity.
Qed.

(** ** Hence: a source that never fails loads an ELF, PE or DTB image like a plain in-memory image, however its read calls
    are interrupted and cut short (vm-memory retrying short reads). *)
Theorem C75_like_plain : forall bld s t u m m1 m2 x1 x2,
  wf_mem m = true -> ~ raw_fails s ->
  match t with
  | RawElf off h s' => s' = s /\ u = LoadElf off h (mkReader (rw_data s) 0 (rw_maxpos s) (fun _ => lenN (rw_data s)) (fun _ _ => false) 0)
  | RawPe a off h s' => s' = s /\ u = LoadPe a off h (mkReader (rw_data s) 0 (rw_maxpos s) (fun _ => lenN (rw_data s)) (fun _ _ => false) 0)
  | RawDtb addr s' => s' = s /\ u = LoadDtb addr (mkReader (rw_data s) 0 (rw_maxpos s) (fun _ => lenN (rw_data s)) (fun _ _ => false) 0)
  | _ => False
  end ->
  raw_perform bld TryAccess t m = (m1, x1) -> perform bld TryAccess u m = (m2, x2) ->
  x1 = x2 /\ same_guest m1 m2.
Proof.
  intros bld s t u m m1 m2 x1 x2 Wm Hf Hu R1 R2.
  destruct (C74_stand_in _ _ _ _ _ _ R1) as (v & Hv & R3).
  assert (SG : same_guest m m) by (split; intros; tauto).
  set (r0 := mkReader (rw_data s) 0 (rw_maxpos s) (fun _ => lenN (rw_data s)) (fun _ _ => false) 0) in *.
  assert (N0 : ~ io_trouble TryAccess r0).
  { intros [[i Hi]|[[i Hi]|[Hb _]]]; discriminate. }
  assert (NR : forall r, stand_in s (raw_fails s) r -> ~ io_trouble TryAccess r /\ same_image r r0).
  { intros r (Hd & _ & Hm & Hfl & _). split; [|split; assumption]. intros [[i Hi]|[[i Hi]|[Hb _]]]; [apply Hf; eapply Hfl; exact Hi|apply Hf; eapply Hfl; exact Hi|discriminate]. }
  destruct t as [off h s'|off h s'|a off h s'|addr s'|t]; try contradiction; destruct Hu as [-> ->]; destruct Hv as (r & -> & Hr); destruct (NR r Hr) as [Nr Si];
    eapply C61_environment_irrelevant; try exact R3; try exact R2; try assumption; repeat split; try assumption; apply Si.
Qed.

(** The ELF demo image behind a source that is interrupted up to four times before every read call and then
    delivers one to five bytes: it loads, with the same report as from memory. *)
Definition jittery (f : bytes) : raw :=
  mkRaw f 5 (2 ^ 63 - 1) (fun i => (i mod 5, Gives (N.of_nat (i mod 7))))%nat 0 2.
Example C74_applies : exists m' res,
  raw_perform true TryAccess (RawElf None None (jittery demo_elf)) demo_mem = (m', Loaded (Ok res)) /\
  snd (perform true TryAccess (LoadElf None None (plain_reader demo_elf)) demo_mem) = Loaded (Ok res) /\
  peek m' 0x1000000 9 = [x11; x12; x13; x14; x21; x22; x23; x24; xff] /\
  ~ raw_fails (jittery demo_elf) /\ raw_interrupts (jittery demo_elf) /\ raw_cuts (jittery demo_elf).
Proof.
  eexists; eexists. split; [vm_compute; reflexivity|]. split; [vm_compute; reflexivity|]. split; [vm_compute; reflexivity|].
  split; [intros [i Hi]; discriminate Hi|]. split; [exists 1%nat; cbn; lia|]. exists 0%nat, 0. split; [reflexivity|vm_compute; reflexivity].
Qed.
(** A PE image and a device tree behind such sources, one after the other, then a bzImage whose header read (the
    third operation) is interrupted. *)
Definition once_interrupted (f : bytes) : raw :=
  mkRaw f 0 (2 ^ 63 - 1) (fun i => (if (i =? 2)%nat then 1 else 0, Gives (2 ^ 63)))%nat 0 0.
Example C74_histories_applies :
  snd (raw_perform_all true TryAccess
    [RawPe Aarch64 (Some 0x200000) None (jittery (demo_pe Aarch64 0x80 4096)); RawDtb 0x300000 (jittery [x01; x02; x03])] pe_mem) =
  snd (perform_all true TryAccess
    [LoadPe Aarch64 (Some 0x200000) None (plain_reader (demo_pe Aarch64 0x80 4096)); LoadDtb 0x300000 (plain_reader [x01; x02; x03])] pe_mem).
Proof. vm_compute. reflexivity. Qed.
Example C75_bz_applies :
  snd (raw_perform true TryAccess (RawBz None None (once_interrupted demo_bz)) demo_mem) = Loaded (Err (LBz ReadBzImageHeader)) /\
  exists res, snd (perform true TryAccess (LoadBz None None (plain_reader demo_bz)) demo_mem) = Loaded (Ok res).
Proof. split; [vm_compute; reflexivity|]. eexists. vm_compute. reflexivity. Qed.
(** Two sources giving the same answers, interrupted differently. *)
Example C75_applies :
  alike (jittery demo_elf) (mkRaw demo_elf 5 (2 ^ 63 - 1) (fun i => (0, Gives (N.of_nat (i mod 7))))%nat 0 0) /\
  header_uninterrupted (mkRaw demo_bz 0 (2 ^ 63 - 1) (fun i => (i mod 2, Gives (2 ^ 63)))%nat 0 0).
Proof. split; [repeat split|reflexivity]. Qed.
