(** * Props_Limit: theorems for C116 (how much of the command line the kernel takes). *)
From Verif Require Import Base Base_proofs Io Mem SpecMem Mem_proofs Layout SpecFile Text Cmdline SpecCmdline Text_proofs Cmdline_proofs
  Cmdline_proofs2 Loader BzImage SpecBz BootParams Configurators SpecBoot SpecAbi Demo_elf SpecVmm Vmm_proofs
  Props_Cmdline Props_Loader Props_Bz Props_Vmm Props_Boot_e2e SpecGuest Props_Guest.
Local Open Scope list_scope.

(** A kernel that takes at most [room] characters takes the first [room] ones. *)
Lemma text_at_prefix m s : forall a room, guest_string m a s -> text_at m a room = firstn room (map n8 s).
Proof.
  induction s as [|b s IH]; intros a room [H Z].
  - destruct room as [|room]; [reflexivity|]. cbn [text_at map firstn]. pose proof (H 0 x00 eq_refl) as B. rewrite N.add_0_r in B. rewrite B. reflexivity.
  - destruct room as [|room]; [reflexivity|]. cbn [text_at map firstn]. pose proof (H 0 b eq_refl) as B. rewrite N.add_0_r in B. rewrite B.
    destruct (n8 b =? 0) eqn:E; [exfalso; apply Z; left; exact (n8_zero b E)|]. f_equal. apply IH. split.
    + intros i x Hi. replace (a + 1 + i) with (a + (i + 1)) by lia. apply H. replace (N.to_nat (i + 1)) with (S (N.to_nat i)) by lia. exact Hi.
    + intros Hin. apply Z. right; exact Hin.
Qed.

(** Any boot: calls on separate areas, among them [load_cmdline] of a builder's line.  A guest that
    takes at most [limit] characters takes the whole line if the capacity is at most [limit + 1]
    (the capacity counts the terminating NUL); otherwise it takes a prefix. *)
Theorem C116_whole_line_taken : forall bld be m ts m' xs line k c0 os limit,
  wf_mem m = true -> Forall task_typed ts -> all_separate ts -> perform_all bld be ts m = (m', xs) ->
  ctor_typed k -> run_ctor k = Ok c0 -> reported ts xs (LoadCmdline line (run_ops bld c0 os)) (Done (Ok tt)) ->
  exists s, as_cstring (run_ops bld c0 os) = Ok s /\
    text_at m' line (N.to_nat limit) = firstn (N.to_nat limit) (map n8 s) /\
    (ctor_cap k <= limit + 1 -> text_at m' line (N.to_nat limit) = map n8 s).
Proof.
  intros bld be m ts m' xs line k c0 os limit Hw Ht Hs H Hk Hc Hr.
  destruct (cmdline_call_string _ _ _ _ _ _ _ _ Hw Ht H Hr) as (s & Es & Z).
  assert (G : guest_string m' line s).
  { split; [|exact Z].
    apply (C58_all_in_place bld be ts m m' xs (LoadCmdline line (run_ops bld c0 os)) (Done (Ok tt)) [] line (s ++ [x00]) [] Hw Ht Hs H Hr);
      [right; left; reflexivity|cbn [writes]; rewrite Es; reflexivity|intros q []]. }
  exists s. split; [exact Es|]. split; [apply text_at_prefix; exact G|]. intros L. apply text_at_string; [|exact G].
  pose proof (capacity_respected bld k c0 os (s ++ [x00]) Hk Hc) as X. unfold cmdline_to_vec in X. rewrite Es in X.
  specialize (X eq_refl). rewrite lenN_app in X. change (lenN [x00]) with 1 in X. unfold lenN in X. lia.
Qed.

(** For a bzImage the limit is announced in the header that [load] returns (cmdline_size, at 0x238
    of the file): a builder with that capacity plus one never has its line cut off. *)
Theorem C116_announced_limit : forall bld be off highmem r m m1 res h ts m2 xs line k c0 os,
  wf_mem m = true -> Forall task_typed (LoadBz off highmem r :: ts) -> all_separate (LoadBz off highmem r :: ts) ->
  perform bld be (LoadBz off highmem r) m = (m1, Loaded (Ok res)) -> ~ short_reads r -> result_header res = Some h ->
  perform_all bld be ts m1 = (m2, xs) ->
  ctor_typed k -> run_ctor k = Ok c0 -> reported ts xs (LoadCmdline line (run_ops bld c0 os)) (Done (Ok tt)) ->
  ctor_cap k <= u32at h (0x238 - 0x1f1) + 1 ->
  u32at h (0x238 - 0x1f1) = u32at (rd_data r) 0x238 /\
  exists s, as_cstring (run_ops bld c0 os) = Ok s /\ text_at m2 line (N.to_nat (u32at (rd_data r) 0x238)) = map n8 s.
Proof.
  intros bld be off highmem r m m1 res h ts m2 xs line k c0 os Hw Ht Hs E Hsr Eh H Hk Hc (i & I1 & I2) Hcap.
  assert (Hh : u32at h (0x238 - 0x1f1) = u32at (rd_data r) 0x238).
  { pose proof (Forall_inv Ht) as (T1 & T2 & T3). cbn [perform] in E.
    destruct (bz_load be off highmem r m) as [[r' m0] o] eqn:B. inversion E; subst.
    destruct (C36_bz_setup_header be off highmem r m m1 res) as (h' & Eh' & Lh & Same & _).
    - unfold bz_runs. repeat (split; [assumption|]). now exists r'.
    - exact Hsr.
    - rewrite Eh in Eh'. injection Eh' as <-.
      unfold u32at, u16at. change (0x238 - 0x1f1) with 71.
      assert (By : forall j, 39 <= j -> j < 123 -> byte_at h j = byte_at (rd_data r) (0x1f1 + j)).
      { intros j J1 J2. pose proof (Same j J2 (or_intror J1)) as Q. unfold byte_at. now rewrite Q. }
      rewrite !By by lia. reflexivity. }
  split; [exact Hh|]. rewrite Hh in Hcap.
  assert (Hall : perform_all bld be (LoadBz off highmem r :: ts) m = (m2, Loaded (Ok res) :: xs)) by (cbn [perform_all]; rewrite E, H; reflexivity).
  destruct (C116_whole_line_taken bld be m (LoadBz off highmem r :: ts) m2 (Loaded (Ok res) :: xs) line k c0 os (u32at (rd_data r) 0x238)) as (s & Es & _ & W);
    try assumption; [exists (S i); split; assumption|].
  exists s. split; [exact Es|exact (W Hcap)].
Qed.

(** ** Concrete cases *)
(** A line of capacity 10 (9 characters) at 0x8000; a guest that takes 9 characters takes it all,
    one that takes 8 cuts it off. *)
Definition limit_ops : list op := [OpInsert (txt "ab") (txt "cdef"); OpStr (txt "x")].
Definition limit_line : cmdline := run_ops true (mkCmdline [] [] 10) limit_ops.
Definition limit_tasks : list task := [LoadCmdline 0x8000 limit_line].
Definition limit_mem : gmem := fst (perform_all true TryAccess limit_tasks demo_mem).
Example C116_applies : ctor_typed (New 10) /\ run_ctor (New 10) = Ok (mkCmdline [] [] 10) /\ Forall task_typed limit_tasks /\ all_separate limit_tasks /\
  reported limit_tasks (snd (perform_all true TryAccess limit_tasks demo_mem)) (LoadCmdline 0x8000 limit_line) (Done (Ok tt)) /\
  text_at limit_mem 0x8000 9 = txt "ab=cdef x" /\ text_at limit_mem 0x8000 8 = txt "ab=cdef ".
Proof.
  split; [reflexivity|]. split; [reflexivity|].
  split; [constructor; [reflexivity|constructor]|]. split; [repeat constructor|].
  split; [exists 0%nat; split; vm_compute; reflexivity|]. split; vm_compute; reflexivity.
Qed.
(** The other theorem: the boot of [C63_applies] meets its hypotheses; its image announces a limit far above the capacity of 128. *)
Example C116_announced_applies : u32at boot_h (0x238 - 0x1f1) = 0xaaaaaaaa /\ boot_line = demo true /\
  (exists c0, run_ctor (New 128) = Ok c0 /\ demo true = run_ops true c0 demo_ops) /\ ~ short_reads (plain_reader demo_bz).
Proof.
  split; [vm_compute; reflexivity|]. split; [reflexivity|]. split; [eexists; split; [reflexivity|vm_compute; reflexivity]|].
  intros Hs. refine (quiet_plain demo_bz _ (or_intror Hs)). reflexivity.
Qed.
