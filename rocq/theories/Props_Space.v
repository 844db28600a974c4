(** * Props_Space: where a VMM may put things so that they survive the start of the kernel (C111).

    Vocabulary: SpecSpace.v ([takes], [started]), SpecVmm.v ([task], [perform], [touches], [writes]). *)
From Verif Require Import Base Base_proofs Io Mem SpecMem Mem_proofs SpecFile File_proofs Text Cmdline SpecCmdline Loader Elf SpecElf
  BzImage SpecBz Bz_proofs Pe SpecPe Pe_proofs BootParams Configurators SpecBoot Elf_proofs2 Demo_elf
  Props_Loader Props_Elf Props_Bz Props_Pe Props_Config SpecVmm Vmm_proofs Sim_proofs Props_Vmm Props_Env Props_Boot_e2e Props_Place SpecSpace.
Local Open Scope list_scope.

(** Whatever was placed off the kernel's memory is still there when the kernel has started. *)
Theorem C111_survives : forall bld be t m m1 res ts m2 xs m3 u x pre a bs post,
  wf_mem m = true -> task_typed t -> perform bld be t m = (m1, Loaded (Ok res)) ->
  Forall task_typed ts -> all_separate (t :: ts) -> perform_all bld be ts m1 = (m2, xs) ->
  (forall v y, In v ts -> touches v y -> ~ takes t res y) -> started t res m2 m3 ->
  reported ts xs u x -> success x -> writes u x = pre ++ (a, bs) :: post -> (forall s, In s post -> disjoint (a, bs) s) ->
  holds_at m3 a bs.
Proof.
  intros bld be t m m1 res ts m2 xs m3 u x pre a bs post Hw Ht H Hts Hsep Hall Hoff Hst Hrep Hs Hwr Hpost.
  assert (Hw1 : wf_mem m1 = true) by (rewrite <- Hw; apply wf_mem_regions; apply (C56_success_writes _ _ _ _ _ _ Hw Ht H); left; eauto).
  assert (Hsep2 : all_separate ts) by (inversion Hsep; assumption).
  assert (Hdis : forall v, In v ts -> separate t v). { inversion Hsep as [|? ? Hf _]; subst. intros v Hv. rewrite Forall_forall in Hf. exact (Hf v Hv). }
  pose proof (C58_all_in_place bld be ts m1 m2 xs u x pre a bs post Hw1 Hts Hsep2 Hall Hrep Hs Hwr Hpost) as Hh.
  destruct Hst as (_ & Hst). intros i b Hi. rewrite Hst; [exact (Hh i b Hi)|].
  assert (Hu : In u ts) by (destruct Hrep as (j & Hj & _); eapply nth_error_In; exact Hj).
  assert (Htouch : touches u (a + i)).
  { destruct Hrep as (j & Hj & Hx). destruct (nth_error_split _ _ Hj) as (l1 & l2 & El & Ej). subst ts j.
    rewrite perform_all_app in Hall. destruct (perform_all bld be l1 m1) as [n1 xs1] eqn:E1. cbn [perform_all] in Hall.
    destruct (perform bld be u n1) as [n2 x2] eqn:E2. destruct (perform_all bld be l2 n2) as [n3 xs3] eqn:E3. injection Hall as Hm Hxs. subst n3 xs.
    apply Forall_app in Hts as (Ht1 & Ht2). inversion Ht2 as [|? ? Htu _]; subst.
    rewrite nth_error_app2 in Hx by (rewrite (perform_all_length _ _ _ _ _ _ E1); lia).
    rewrite (perform_all_length _ _ _ _ _ _ E1), Nat.sub_diag in Hx. cbn in Hx. injection Hx as Hx. subst x2.
    destruct (perform_all_frame _ _ _ _ _ _ Hw1 Ht1 E1) as (Hwn & _).
    apply (C56_writes_inside _ _ _ _ _ _ Hwn Htu E2 Hs (a, bs) (a + i)); [rewrite Hwr; apply in_elt|].
    assert (N.to_nat i < length bs)%nat by (apply nth_error_Some; rewrite Hi; discriminate). unfold in_range, lenN. cbn. lia. }
  intros [Hk|Hk]; [exact (Hdis u Hu _ Hk Htouch)|exact (Hoff u _ Hu Htouch Hk)].
Qed.

(** ** When is everything from the reported end on safe? *)
Lemma pe_result : forall bld be a off highmem r m m1 res,
  wf_mem m = true -> task_typed (LoadPe a off highmem r) -> perform bld be (LoadPe a off highmem r) m = (m1, Loaded (Ok res)) ->
  kernel_end res = kernel_load res + lenN (rd_data r).
Proof.
  intros bld be a off highmem r m m1 res Hw Ht H. cbn [perform] in H.
  destruct (pe_load a be off highmem r m) as [[r' m'] o] eqn:E. injection H as <- ->.
  assert (Hr : pe_runs a be off highmem r m m' (Ok res)) by (split; [exact Ht|split; [exact Hw|eauto]]).
  exact (proj1 (proj2 (C39_pe_placement _ _ _ _ _ _ _ _ Hr))).
Qed.

(** Image: exactly if the header states the memory needed and it is not more than the file. *)
Theorem C111_image : forall bld be a off highmem r m m1 res,
  wf_mem m = true -> task_typed (LoadPe a off highmem r) -> perform bld be (LoadPe a off highmem r) m = (m1, Loaded (Ok res)) ->
  (end_says_it_all (LoadPe a off highmem r) res <-> pe_image_size (rd_data r) <> 0 /\ pe_image_size (rd_data r) <= lenN (rd_data r)).
Proof.
  intros bld be a off highmem r m m1 res Hw Ht H. pose proof (pe_result _ _ _ _ _ _ _ _ _ Hw Ht H) as He.
  unfold end_says_it_all. cbn [takes]. destruct (N.eqb_spec (pe_image_size (rd_data r)) 0) as [E|E].
  - split; [intros Hx|intros [Hn _]; contradiction]. specialize (Hx (kernel_end res)). lia.
  - unfold in_range. split.
    + intros Hx. split; [exact E|]. specialize (Hx (kernel_load res + pe_image_size (rd_data r) - 1)). lia.
    + intros [_ Hle] x Hx. lia.
Qed.

Lemma bz_result : forall bld be off highmem r m m1 res,
  wf_mem m = true -> task_typed (LoadBz off highmem r) -> perform bld be (LoadBz off highmem r) m = (m1, Loaded (Ok res)) ->
  kernel_end res = kernel_load res + lenN (payload (rd_data r)).
Proof.
  intros bld be off highmem r m m1 res Hw (T1 & T2 & T3) H. cbn [perform] in H.
  destruct (bz_load be off highmem r m) as [[r' m'] o] eqn:E. injection H as <- ->.
  assert (Hr : bz_runs be off highmem r m m' (Ok res)) by (split; [exact T1|split; [exact T2|split; [exact Hw|split; [exact T3|eauto]]]]).
  destruct (C35_bz_payload_placed _ _ _ _ _ _ _ Hr) as (_ & _ & _ & He & _). exact He.
Qed.
Lemma aligned_start_exists n a : exists l, aligned_start n a l.
Proof.
  unfold aligned_start. destruct (N.eqb_spec n 0) as [E|E]; [eexists; reflexivity|].
  exists ((a + (n - 1)) / n * n). split; [eexists; reflexivity|].
  pose proof (N.div_mod (a + (n - 1)) n E) as D. pose proof (N.mod_lt (a + (n - 1)) n E) as L.
  rewrite (N.mul_comm n) in D. lia.
Qed.
Lemma aligned_start_unique n a l l' : aligned_start n a l -> aligned_start n a l' -> l = l'.
Proof.
  unfold aligned_start. destruct (N.eqb_spec n 0) as [E|E]; [congruence|].
  intros ((k & ->) & A1 & A2) ((k' & ->) & B1 & B2). f_equal. destruct (N.lt_trichotomy k k') as [L|[L|L]]; [|exact L|]; exfalso; nia.
Qed.
Lemma runs_at_exists f a : exists l, runs_at f a l.
Proof. unfold runs_at. destruct (bz_relocatable f); [apply aligned_start_exists|eexists; reflexivity]. Qed.
Lemma runs_at_unique f a l l' : runs_at f a l -> runs_at f a l' -> l = l'.
Proof. unfold runs_at. destruct (bz_relocatable f); [apply aligned_start_unique|congruence]. Qed.

(** bzImage: exactly if it is of protocol 2.10 and runs, with all the memory it needs, below the end of what was loaded. *)
Theorem C111_bzimage : forall bld be off highmem r m m1 res,
  wf_mem m = true -> task_typed (LoadBz off highmem r) -> perform bld be (LoadBz off highmem r) m = (m1, Loaded (Ok res)) ->
  (end_says_it_all (LoadBz off highmem r) res <->
   0x20a <= bz_version (rd_data r) /\
   (bz_init_size (rd_data r) = 0 \/
    exists l, runs_at (rd_data r) (kernel_load res) l /\ l + bz_init_size (rd_data r) <= kernel_load res + lenN (payload (rd_data r)))).
Proof.
  intros bld be off highmem r m m1 res Hw Ht H. pose proof (bz_result _ _ _ _ _ _ _ _ Hw Ht H) as He.
  unfold end_says_it_all. cbn [takes]. destruct (N.leb_spec 0x20a (bz_version (rd_data r))) as [V|V].
  - destruct (runs_at_exists (rd_data r) (kernel_load res)) as (l & Hl). unfold in_range. split.
    + intros Hx. split; [exact V|]. destruct (N.eq_dec (bz_init_size (rd_data r)) 0) as [Z|Z]; [left; exact Z|right].
      exists l. split; [exact Hl|]. specialize (Hx (l + bz_init_size (rd_data r) - 1)).
      assert (l + bz_init_size (rd_data r) - 1 < kernel_end res) by (apply Hx; exists l; split; [exact Hl|lia]). lia.
    + intros (_ & [Z|(l' & Hl' & Hle)]) x (l2 & Hl2 & Hx); [lia|]. rewrite (runs_at_unique _ _ _ _ Hl2 Hl') in Hx. lia.
  - split; [|intros (Hv & _); lia]. intros Hx. specialize (Hx (kernel_end res)). lia.
Qed.

(** ELF: exactly if every segment without bytes in the file ends below it, too (those with bytes in the file always do). *)
Theorem C111_elf : forall bld be off highmem r m m1 res,
  wf_mem m = true -> task_typed (LoadElf off highmem r) -> perform bld be (LoadElf off highmem r) m = (m1, Loaded (Ok res)) ->
  (end_says_it_all (LoadElf off highmem r) res <->
   forall p, In p (phdrs_of (rd_data r)) -> ph_type p = 1 -> ph_filesz p = 0 -> ph_memsz p <> 0 ->
     base_of off + ph_paddr p + ph_memsz p <= kernel_end res).
Proof.
  intros bld be off highmem r m m1 res Hw Ht H. cbn [perform task_typed] in *.
  destruct (elf_load bld be off highmem r m) as [[r' m'] o] eqn:E. injection H as <- ->.
  assert (Hr : runs bld be off highmem r m m' (Ok res)) by (split; [exact Ht|split; [exact Hw|eauto]]).
  destruct (C21_elf_addresses _ _ _ _ _ _ _ _ Hr) as (_ & _ & _ & _ & Hl & _).
  unfold end_says_it_all. cbn [takes]. unfold in_range. split.
  - intros Hx p Hp Ty Fz Mz. specialize (Hx (base_of off + ph_paddr p + ph_memsz p - 1)).
    assert (base_of off + ph_paddr p + ph_memsz p - 1 < kernel_end res) by (apply Hx; exists p; split; [exact Hp|split; [exact Ty|lia]]). lia.
  - intros Hb x (p & Hp & Ty & Hx). destruct (N.eq_dec (ph_filesz p) 0) as [Fz|Fz].
    + specialize (Hb p Hp Ty Fz). lia.
    + specialize (Hl p Hp). unfold is_load in Hl. rewrite Ty in Hl. destruct (N.eqb_spec (ph_filesz p) 0) as [|_]; [contradiction|]. specialize (Hl eq_refl). lia.
Qed.

(** Then anything from the reported end on survives. *)
Theorem C111_from_the_end_on : forall bld be t m m1 res ts m2 xs m3 u x pre a bs post,
  wf_mem m = true -> task_typed t -> perform bld be t m = (m1, Loaded (Ok res)) -> honest t -> end_says_it_all t res ->
  Forall task_typed ts -> all_separate ts -> (forall v y, In v ts -> touches v y -> kernel_end res <= y) ->
  perform_all bld be ts m1 = (m2, xs) -> started t res m2 m3 ->
  reported ts xs u x -> success x -> writes u x = pre ++ (a, bs) :: post -> (forall s, In s post -> disjoint (a, bs) s) ->
  holds_at m3 a bs.
Proof.
  intros bld be t m m1 res ts m2 xs m3 u x pre a bs post Hw Ht H Hh He Hts Hsep Hafter Hall Hst Hrep Hs Hwr Hpost.
  destruct (C69_below_kernel_end _ _ _ _ _ _ Hw Ht H Hh) as (Hin & _).
  apply (C111_survives bld be t m m1 res ts m2 xs m3 u x pre a bs post); try assumption.
  - constructor; [|exact Hsep]. apply Forall_forall. intros v Hv y Hy Hty. destruct (Hin y Hy) as [Hlt _]. specialize (Hafter v y Hv Hty). lia.
  - intros v y Hv Hy Htk. specialize (Hafter v y Hv Hy). specialize (He y Htk). lia.
Qed.

(** ** The reported end alone is not enough: for each format an image, loaded without error, that destroys when it is started
    a device tree or command line put right behind the reported end. *)
Definition lost (t : task) (m : gmem) (be : backend) : Prop := exists m1 res m2 m3,
  wf_mem m = true /\ task_typed t /\ honest t /\ perform true be t m = (m1, Loaded (Ok res)) /\
  perform true be (LoadDtb (kernel_end res) (plain_reader [xd0; x0d; xfe; xed])) m1 = (m2, Done (Ok tt)) /\
  (forall x, touches t x -> ~ touches (LoadDtb (kernel_end res) (plain_reader [xd0; x0d; xfe; xed])) x) /\
  started t res m2 m3 /\ ~ holds_at m3 (kernel_end res) [xd0; x0d; xfe; xed].

Lemma lost_by : forall t m be m1 res m2,
  wf_mem m = true -> task_typed t -> honest t -> perform true be t m = (m1, Loaded (Ok res)) ->
  perform true be (LoadDtb (kernel_end res) (plain_reader [xd0; x0d; xfe; xed])) m1 = (m2, Done (Ok tt)) ->
  takes t res (kernel_end res) -> lost t m be.
Proof.
  intros t m be m1 res m2 Hw Ht Hh H Hd Htk. exists m1, res, m2, (mem_store m2 (kernel_end res) [x00]).
  split; [exact Hw|]. split; [exact Ht|]. split; [exact Hh|]. split; [exact H|]. split; [exact Hd|].
  split. { intros x Hx [Hge _]. destruct (C69_below_kernel_end _ _ _ _ _ _ Hw Ht H Hh) as (Hin & _). destruct (Hin x Hx) as [Hlt _]. lia. }
  split. { destruct (mem_store_frame m2 (kernel_end res) [x00]) as (Hr & Hf). split; [exact Hr|]. intros x Hx. apply Hf. intros [A B]. apply Hx. right.
           change (lenN [x00]) with 1 in B. replace x with (kernel_end res) by lia. exact Htk. }
  intros Hh0. specialize (Hh0 0 xd0 eq_refl). rewrite N.add_0_r in Hh0. cbn [mem_store gm_byte store] in Hh0.
  unfold upd in Hh0. rewrite N.eqb_refl in Hh0. discriminate Hh0.
Qed.

(** One segment with bytes in the file, then one without: the second is not counted. *)
Definition bss_elf : bytes :=
  ehdr_bytes 1 0x1000 64 56 2 ++ phdr_bytes 1 176 0x1000 4 4 ++ phdr_bytes 1 0 0x1004 0 0x100 ++ [x11; x12; x13; x14].
Theorem C111_elf_end_refuted : forall be, lost (LoadElf None None (plain_reader bss_elf)) demo_mem be.
Proof.
  intros be.
  assert (H : exists m1 res m2, perform true be (LoadElf None None (plain_reader bss_elf)) demo_mem = (m1, Loaded (Ok res)) /\ kernel_end res = 0x1004 /\
    perform true be (LoadDtb (kernel_end res) (plain_reader [xd0; x0d; xfe; xed])) m1 = (m2, Done (Ok tt))).
  { destruct be; (do 3 eexists; split; [vm_compute; reflexivity|split; [reflexivity|vm_compute; reflexivity]]). }
  destruct H as (m1 & res & m2 & H1 & H2 & H3).
  apply (lost_by _ _ _ m1 res m2); try assumption; try reflexivity.
  - apply plain_wf. reflexivity.
  - cbn [honest]. intros p Hp Hl. revert Hl. change (rd_data (plain_reader bss_elf)) with bss_elf in Hp.
    assert (A : forallb (fun p => negb (is_load p) || (ph_filesz p <=? ph_memsz p)) (phdrs_of bss_elf) = true) by (vm_compute; reflexivity).
    rewrite forallb_forall in A. specialize (A p Hp). intros Hl. rewrite Hl in A. cbn in A. apply N.leb_le in A. exact A.
  - rewrite H2. cbn [takes]. exists (mkPh 1 0 0x1004 0 0x100). split; [|split; [reflexivity|split; vm_compute; congruence]].
    change (rd_data (plain_reader bss_elf)) with bss_elf. vm_compute. right. left. reflexivity.
Qed.

(** An Image whose header asks for 4096 bytes; the file has 67. *)
Theorem C111_image_end_refuted : forall a be, lost (LoadPe a (Some 0x200000) None (plain_reader (demo_pe a 0x80 4096))) pe_mem be.
Proof.
  intros a be. set (t := LoadPe a (Some 0x200000) None (plain_reader (demo_pe a 0x80 4096))).
  assert (H : exists m1 res m2, perform true be t pe_mem = (m1, Loaded (Ok res)) /\ (kernel_end res = 0x2000c3 /\ kernel_load res = 0x200080) /\
    perform true be (LoadDtb (kernel_end res) (plain_reader [xd0; x0d; xfe; xed])) m1 = (m2, Done (Ok tt))).
  { unfold t. destruct a, be; (do 3 eexists; split; [vm_compute; reflexivity|split; [split; reflexivity|vm_compute; reflexivity]]). }
  destruct H as (m1 & res & m2 & H1 & (H2 & H2') & H3).
  apply (lost_by t _ _ m1 res m2); try assumption; try reflexivity.
  - apply plain_wf. destruct a; reflexivity.
  - rewrite H2. unfold t. cbn [takes]. rewrite H2'.
    assert (A : pe_image_size (demo_pe a 0x80 4096) = 4096) by (destruct a; vm_compute; reflexivity).
    change (rd_data (plain_reader (demo_pe a 0x80 4096))) with (demo_pe a 0x80 4096). rewrite A. split; vm_compute; congruence.
Qed.

(** A relocatable bzImage of protocol 2.12 that needs [init] bytes; its protected mode part has 8. *)
Definition hungry_bz (init : N) : bytes :=
  zeros 0x1f1 ++ [x02] ++ zeros 16 ++ le_enc 4 0x53726448 ++ le_enc 2 0x20c ++ zeros 9 ++ [x01] ++ [x00; x00] ++
  le_enc 4 0x1000000 ++ zeros 24 ++ le_enc 4 0x1000 ++ [x01] ++ zeros 35 ++ le_enc 8 0x3800 ++ le_enc 4 init ++ zeros 8 ++
  zeros (1536 - 620) ++ [x11; x12; x13; x14; x15; x16; x17; x18].
Theorem C111_bzimage_end_refuted : forall be, lost (LoadBz (Some 0x4000) None (plain_reader (hungry_bz 0x100))) demo_mem be.
Proof.
  intros be. set (t := LoadBz (Some 0x4000) None (plain_reader (hungry_bz 0x100))).
  assert (H : exists m1 res m2, perform true be t demo_mem = (m1, Loaded (Ok res)) /\ (kernel_end res = 0x4008 /\ kernel_load res = 0x4000) /\
    perform true be (LoadDtb (kernel_end res) (plain_reader [xd0; x0d; xfe; xed])) m1 = (m2, Done (Ok tt))).
  { unfold t. destruct be; (do 3 eexists; split; [vm_compute; reflexivity|split; [split; reflexivity|vm_compute; reflexivity]]). }
  destruct H as (m1 & res & m2 & H1 & (H2 & H2') & H3).
  apply (lost_by t _ _ m1 res m2); try assumption; try reflexivity.
  - split; [apply plain_wf; reflexivity|]. split; [vm_compute; discriminate|]. intros a Ea. inversion Ea. reflexivity.
  - rewrite H2. unfold t. cbn [takes]. rewrite H2'. change (rd_data (plain_reader (hungry_bz 0x100))) with (hungry_bz 0x100).
    replace (0x20a <=? bz_version (hungry_bz 0x100)) with true by (vm_compute; reflexivity).
    exists 0x4000. split.
    + unfold runs_at. replace (bz_relocatable (hungry_bz 0x100)) with true by (vm_compute; reflexivity).
      replace (bz_alignment (hungry_bz 0x100)) with 0x1000 by (vm_compute; reflexivity).
      replace (bz_pref_address (hungry_bz 0x100)) with 0x3800 by (vm_compute; reflexivity).
      unfold aligned_start. cbn. split; [exists 4; reflexivity|split; vm_compute; congruence].
    + replace (bz_init_size (hungry_bz 0x100)) with 0x100 by (vm_compute; reflexivity). split; vm_compute; congruence.
Qed.

(** ** Concrete cases meeting the hypotheses. *)
(** The same bzImage needing 8 bytes: the end says it all, and the command line behind it survives. *)
Example C111_applies : forall be, let t := LoadBz (Some 0x4000) None (plain_reader (hungry_bz 8)) in
  exists m1 res m2, wf_mem demo_mem = true /\ task_typed t /\ honest t /\ perform true be t demo_mem = (m1, Loaded (Ok res)) /\ end_says_it_all t res /\
  let u := LoadCmdline (kernel_end res) boot_line in
  perform_all true be [u] m1 = (m2, [Done (Ok tt)]) /\ all_separate [u] /\ (forall y, touches u y -> kernel_end res <= y).
Proof.
  intros be t.
  assert (H : exists m1 res m2, perform true be t demo_mem = (m1, Loaded (Ok res)) /\ (kernel_end res = 0x4008 /\ kernel_load res = 0x4000) /\
    perform_all true be [LoadCmdline (kernel_end res) boot_line] m1 = (m2, [Done (Ok tt)])).
  { unfold t. destruct be; (do 3 eexists; split; [vm_compute; reflexivity|split; [split; reflexivity|vm_compute; reflexivity]]). }
  assert (Ht : task_typed t). { split; [apply plain_wf; reflexivity|]. split; [vm_compute; discriminate|]. intros a Ea. inversion Ea. reflexivity. }
  destruct H as (m1 & res & m2 & H1 & (H2 & H2') & H3). exists m1, res, m2.
  split; [reflexivity|]. split; [exact Ht|]. split; [exact I|]. split; [exact H1|]. split.
  - apply (C111_bzimage true be _ _ _ demo_mem m1 res eq_refl Ht H1). rewrite H2'.
    change (rd_data (plain_reader (hungry_bz 8))) with (hungry_bz 8). split; [vm_compute; congruence|right].
    exists 0x4000. split; [|vm_compute; congruence].
    unfold runs_at. replace (bz_relocatable (hungry_bz 8)) with true by (vm_compute; reflexivity).
    replace (bz_alignment (hungry_bz 8)) with 0x1000 by (vm_compute; reflexivity).
    replace (bz_pref_address (hungry_bz 8)) with 0x3800 by (vm_compute; reflexivity).
    unfold aligned_start. cbn. split; [exists 4; reflexivity|split; vm_compute; congruence].
  - cbv zeta. split; [exact H3|]. split; [constructor; constructor|]. intros y Hy. cbn [touches] in Hy.
    destruct (as_cstring boot_line); try contradiction. exact (proj1 Hy).
Qed.
(** An ELF image and an Image for which the end says it all. *)
Definition tidy_elf : bytes :=
  ehdr_bytes 1 0x1000 64 56 2 ++ phdr_bytes 1 176 0x1000 4 0x200 ++ phdr_bytes 1 0 0x1100 0 0x100 ++ [x11; x12; x13; x14].
Example C111_applies_elf : forall be, exists m1 res, perform true be (LoadElf None None (plain_reader tidy_elf)) demo_mem = (m1, Loaded (Ok res)) /\
  end_says_it_all (LoadElf None None (plain_reader tidy_elf)) res.
Proof.
  intros be.
  assert (H : exists m1 res, perform true be (LoadElf None None (plain_reader tidy_elf)) demo_mem = (m1, Loaded (Ok res)) /\ kernel_end res = 0x1200).
  { destruct be; (do 2 eexists; split; [vm_compute; reflexivity|reflexivity]). }
  destruct H as (m1 & res & H & E). exists m1, res. split; [exact H|].
  apply (C111_elf true be None None _ demo_mem m1 res eq_refl); [apply plain_wf; reflexivity|exact H|].
  change (rd_data (plain_reader tidy_elf)) with tidy_elf. rewrite E.
  assert (A : forallb (fun p => 0 + ph_paddr p + ph_memsz p <=? 0x1200) (phdrs_of tidy_elf) = true) by (vm_compute; reflexivity).
  rewrite forallb_forall in A. intros p Hp _ _ _. specialize (A p Hp). apply N.leb_le in A. exact A.
Qed.
Example C111_applies_image : forall a be, let t := LoadPe a (Some 0x200000) None (plain_reader (demo_pe a 0x80 67)) in
  exists m1 res, perform true be t pe_mem = (m1, Loaded (Ok res)) /\ end_says_it_all t res.
Proof.
  intros a be t.
  assert (H : exists m1 res, perform true be t pe_mem = (m1, Loaded (Ok res))).
  { unfold t. destruct a, be; (do 2 eexists; vm_compute; reflexivity). }
  destruct H as (m1 & res & H). exists m1, res. split; [exact H|].
  apply (C111_image true be a _ None _ pe_mem m1 res eq_refl); [apply plain_wf; destruct a; reflexivity|exact H|].
  change (rd_data (plain_reader (demo_pe a 0x80 67))) with (demo_pe a 0x80 67).
  destruct a; split; vm_compute; congruence.
Qed.
