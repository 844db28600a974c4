(** * Props_Boot_e2e: complete preparations, seen from the guest (C62-C64). *)
From Verif Require Import Base Base_proofs Io Mem SpecMem Mem_proofs Layout SpecFile File_proofs Text Cmdline SpecCmdline Cmdline_proofs
  Cmdline_proofs2 Cmdline_proofs3 Loader Elf SpecElf
  BzImage SpecBz Bz_proofs Pe SpecPe BootParams Configurators SpecBoot SpecAbi Layout_proofs Demo_elf SpecVmm Vmm_proofs
  Props_Cmdline Props_Loader Props_Elf Props_Bz Props_Config Props_Boot Props_Abi Props_Vmm.
Local Open Scope list_scope.

(** The C string the guest finds at [a]: the bytes up to the first NUL. *)
Definition guest_string (m : gmem) (a : N) (s : bytes) : Prop :=
  holds_at m a (s ++ [x00]) /\ ~ In x00 s.

(** The call [t] is in the list [ts] and reported [x]. *)
Definition reported (ts : list task) (xs : list report) (t : task) (x : report) : Prop :=
  exists i, nth_error ts i = Some t /\ nth_error xs i = Some x.

Lemma FOP_app_inv {A} (R : A -> A -> Prop) l1 x l2 : ForallOrdPairs R (l1 ++ x :: l2) -> Forall (R x) l2.
Proof. induction l1 as [|y l1 IH]; cbn; intros H; inversion H; subst; auto. Qed.

(** In a preparation on separate areas, everything the successful calls placed is there at the end. *)
Theorem C58_all_in_place : forall bld be ts m m' xs t x pre a bs post,
  wf_mem m = true -> Forall task_typed ts -> all_separate ts -> perform_all bld be ts m = (m', xs) ->
  reported ts xs t x -> success x -> writes t x = pre ++ (a, bs) :: post ->
  (forall s, In s post -> disjoint (a, bs) s) -> holds_at m' a bs.
Proof.
  intros bld be ts m m' xs t x pre a bs post Hw Ht Hsep H (i & Hi & Hx) Hs Hwr Hpost.
  destruct (nth_error_split _ _ Hi) as (l1 & l2 & -> & <-).
  assert (Hin : forall y, in_range a (lenN bs) y -> touches t y).
  { rewrite perform_all_app in H. destruct (perform_all bld be l1 m) as [m1 xs1] eqn:E1. cbn in H.
    destruct (perform bld be t m1) as [m2 x2] eqn:E2. destruct (perform_all bld be l2 m2) as [m3 xs3] eqn:E3. inversion H; subst m3 xs.
    apply Forall_app in Ht as (Ht1 & Ht2). inversion Ht2; subst.
    rewrite nth_error_app2 in Hx by (rewrite (perform_all_length _ _ _ _ _ _ E1); lia).
    rewrite (perform_all_length _ _ _ _ _ _ E1), Nat.sub_diag in Hx. cbn in Hx. inversion Hx; subst x2.
    destruct (perform_all_frame _ _ _ _ _ _ Hw Ht1 E1) as (Hw1 & _). intros y Hy.
    apply (C56_writes_inside _ _ _ _ _ _ Hw1 H2 E2 Hs (a, bs) y); [rewrite Hwr; apply in_elt|exact Hy]. }
  apply (C58_pieces_survive bld be l1 t l2 m m' xs x pre a bs post); try assumption.
  intros u y Hu Hy Hr. apply FOP_app_inv in Hsep. rewrite Forall_forall in Hsep. exact (Hsep u Hu y (Hin y Hr) Hy).
Qed.

(** ** C62: the command line, from the builder calls to the guest. *)
Theorem C62_cmdline_reaches_guest : forall bld be k c0 os before addr after m m' xs,
  ctor_typed k -> run_ctor k = Ok c0 ->
  wf_mem m = true -> Forall task_typed (before ++ LoadCmdline addr (run_ops bld c0 os) :: after) ->
  perform_all bld be (before ++ LoadCmdline addr (run_ops bld c0 os) :: after) m = (m', xs) ->
  nth_error xs (length before) = Some (Done (Ok tt)) ->
  (forall u y, In u after -> touches u y -> ~ in_range addr (ctor_cap k) y) ->
  exists boot0 init0 bs is,
    ctor_parts k boot0 init0 /\ accepted bld c0 os bs is (run_ops bld c0 os) /\
    guest_string m' addr (utf8 (full_text (args_text (boot0 :: bs)) (args_text (init0 :: is)))).
Proof.
  intros bld be k c0 os before addr after m m' xs Hk Hc Hw Ht H Hx Hafter.
  destruct (C03_ordered_concatenation bld k c0 os Hk Hc) as (boot0 & init0 & bs & is & Hp & Ha & Hser).
  exists boot0, init0, bs, is. split; [exact Hp|]. split; [exact Ha|].
  assert (Hok : exists s, as_cstring (run_ops bld c0 os) = Ok s).
  { rewrite perform_all_app in H. destruct (perform_all bld be before m) as [m1 xs1] eqn:E1. cbn [perform_all] in H.
    destruct (perform bld be (LoadCmdline addr (run_ops bld c0 os)) m1) as [m2 x2] eqn:E2.
    destruct (perform_all bld be after m2) as [m3 xs3] eqn:E3. inversion H; subst m3 xs.
    rewrite nth_error_app2 in Hx by (rewrite (perform_all_length _ _ _ _ _ _ E1); lia).
    rewrite (perform_all_length _ _ _ _ _ _ E1), Nat.sub_diag in Hx. cbn in Hx. inversion Hx; subst x2. cbn [perform] in E2.
    destruct (load_cmdline bld be m1 addr (run_ops bld c0 os)) as [m4 o] eqn:E4. inversion E2; subst.
    apply Forall_app in Ht as (Ht1 & _). destruct (perform_all_frame _ _ _ _ _ _ Hw Ht1 E1) as (Hw1 & _).
    destruct (C18_load_cmdline_writes _ _ _ _ _ _ Hw1 E4) as (s & Es & _). eauto. }
  destruct Hok as (s & Es).
  assert (Hv : cmdline_to_vec (run_ops bld c0 os) = Ok (s ++ [x00])) by (unfold cmdline_to_vec; rewrite Es; reflexivity).
  pose proof (C01_capacity_respected bld k c0 os _ Hk Hc Hv) as Hcap.
  assert (Hs : s = utf8 (full_text (args_text (boot0 :: bs)) (args_text (init0 :: is)))).
  { rewrite Es in Hser. unfold serialised in Hser. destruct (args_text (boot0 :: bs)), (args_text (init0 :: is)); try discriminate.
    - inversion Hser. reflexivity.
    - destruct (in_dec _ _ _); [discriminate|]. now inversion Hser.
    - destruct (in_dec _ _ _); [discriminate|]. now inversion Hser. }
  rewrite <- Hs. split.
  - apply (C58_pieces_survive bld be before (LoadCmdline addr (run_ops bld c0 os)) after m m' xs (Done (Ok tt)) [] addr (s ++ [x00]) []); try assumption.
    + right; left; reflexivity.
    + cbn [writes]. rewrite Es. reflexivity.
    + intros t [].
    + intros u y Hu Hy (R1 & R2). apply (Hafter u y Hu Hy). split; [exact R1|lia].
  - destruct (C08_one_nul _ _ Hv) as (b & Eb & Hb). apply app_inj_tail in Eb as (<- & _). exact Hb.
Qed.

(** ** C63: a Linux boot.  The VMM loads a bzImage, builds the zero page from the returned header
    and its own field assignments, among them [cmd_line_ptr], and then performs any calls on
    separate areas, in any order, among them the writing of the zero page and of the command
    line.  The guest then finds everything, the command line by following the pointer. *)
Lemma hdr_field_value f h bp n o s :
  (forall i, i < 123 -> i < 35 \/ 39 <= i -> nth_error h (N.to_nat i) = nth_error f (N.to_nat (0x1f1 + i))) ->
  lenN h = 123 -> lenN bp = 4096 -> listed abi_setup_header n o s -> n <> "code32_start"%string ->
  uint_at (set_bytes boot_params [Fld "hdr"] h bp) (0x1f1 + o) (N.to_nat s) = uint_at f (0x1f1 + o) (N.to_nat s).
Proof.
  intros Hbytes Hlen Hbp Hn Hne. rewrite !uint_at_slice. f_equal. apply slice_ext. intros i Hi. rewrite N2Nat.id in Hi.
  assert (Hb : o + s <= 123 /\ (o + s <= 35 \/ 39 <= o)).
  { destruct C53_boot_layouts as (_ & HL & _). destruct (place_field _ _ _ _ _ HL Hn) as (t' & E & <-). pose proof (locate_bounds _ _ _ _ E) as B.
    split; [exact B|]. assert (D : diverge [Fld n] [Fld "code32_start"]) by now apply div_fld.
    destruct (locate_apart _ _ D setup_header o t' 35 U32 E ltac:(vm_compute; reflexivity)) as [C|C]; [left; lia|right; exact C]. }
  rewrite nth_set_hdr by assumption. rewrite (proj2 (N.leb_le _ _)) by lia. rewrite (proj2 (N.ltb_lt _ _)) by lia. cbn [andb].
  replace (497 + o + i - 497) with (o + i) by lia. rewrite Hbytes by lia. f_equal. lia.
Qed.
Lemma code32_field_value h bp :
  lenN h = 123 -> lenN bp = 4096 -> uint_at (set_bytes boot_params [Fld "hdr"] h bp) 0x214 4 = u32at h 35.
Proof.
  intros Hlen Hbp. rewrite uint_at_slice. rewrite <- le_dec_slice4. f_equal. apply slice_ext. intros i Hi.
  rewrite nth_set_hdr by assumption. rewrite (proj2 (N.leb_le _ _)) by lia. rewrite (proj2 (N.ltb_lt _ _)) by lia. cbn [andb]. f_equal. lia.
Qed.

Theorem C63_linux_boot : forall bld be off highmem r m m1 res h bp asg z ts m2 xs addr c,
  wf_mem m = true -> task_typed (LoadBz off highmem r) -> ~ short_reads r ->
  perform bld be (LoadBz off highmem r) m = (m1, Loaded (Ok res)) -> result_header res = Some h -> lenN bp = 4096 ->
  let p := bp_new (assign_all boot_params asg (set_bytes boot_params [Fld "hdr"] h bp)) z in
  Forall task_typed ts -> all_separate (LoadBz off highmem r :: ts) -> perform_all bld be ts m1 = (m2, xs) ->
  reported ts xs (WriteLinux p) (Written (Ok tt)) -> reported ts xs (LoadCmdline addr c) (Done (Ok tt)) ->
  last_value [Fld "hdr"; Fld "cmd_line_ptr"] asg = Some addr -> addr < 2 ^ 32 ->
  whole_fields [Fld "hdr"; Fld "cmd_line_ptr"] asg ->
  holds_at m2 (kernel_load res) (payload (rd_data r)) /\
  (exists s, as_cstring c = Ok s /\ guest_string m2 (guest_uint m2 (z + 0x228) 4) s) /\
  (forall n o s, listed abi_setup_header n o s -> n <> "code32_start"%string -> whole_fields [Fld "hdr"; Fld n] asg ->
     last_value [Fld "hdr"; Fld n] asg = None ->
     guest_uint m2 (z + 0x1f1 + o) (N.to_nat s) = uint_at (rd_data r) (0x1f1 + o) (N.to_nat s)) /\
  (whole_fields [Fld "hdr"; Fld "code32_start"] asg -> last_value [Fld "hdr"; Fld "code32_start"] asg = None ->
     guest_uint m2 (z + 0x214) 4 = kernel_load res mod 2 ^ 32) /\
  (forall path o s v, zero_page_place path o s -> whole_fields path asg -> last_value path asg = Some v ->
     guest_uint m2 (z + o) (N.to_nat s) = v mod 256 ^ s).
Proof.
  intros until c. intros Hw Ht Hq E Eh Hbp p Hts Hsep H Hzp Hcl Hlast Haddr Hwf.
  assert (Hbz : bz_runs be off highmem r m m1 (Ok res)).
  { destruct Ht as (T1 & T2 & T3). cbn [perform] in E. destruct (bz_load be off highmem r m) as [[r' m'] o] eqn:F. inversion E; subst.
    split; [exact T1|]. split; [exact T2|]. split; [exact Hw|]. split; [exact T3|]. eauto. }
  destruct (C36_bz_setup_header _ _ _ _ _ _ _ Hbz Hq) as (h' & Eh' & Hlen & Hbytes & H35 & _).
  rewrite Eh in Eh'. inversion Eh'; subst h'. clear Eh'. pose proof (len_set_hdr _ _ Hbp Hlen) as Lv.
  assert (Hall : perform_all bld be (LoadBz off highmem r :: ts) m = (m2, Loaded (Ok res) :: xs)).
  { cbn [perform_all]. rewrite E, H. reflexivity. }
  assert (Htt : Forall task_typed (LoadBz off highmem r :: ts)) by now constructor.
  assert (Hz : holds_at m2 z (header p)).
  { destruct Hzp as (i & I1 & I2).
    apply (C58_all_in_place bld be _ m m2 _ (WriteLinux p) (Written (Ok tt)) [] z (header p) [] Hw Htt Hsep Hall);
      [exists (S i); split; assumption|right; right; reflexivity|reflexivity|intros s []]. }
  assert (Hg : forall path o s, zero_page_place path o s -> whole_fields path asg ->
    guest_sees boot_params path o s (set_bytes boot_params [Fld "hdr"] h bp) asg m2 z).
  { intros path o s Hp Hwp. destruct (C53_zero_page_places _ _ _ Hp) as (t' & El & <-).
    exact (guest_sees_held _ _ _ _ _ _ _ _ El Lv Hwp Hz). }
  split; [|split; [|split; [|split]]].
  - apply (C58_all_in_place bld be _ m m2 _ (LoadBz off highmem r) (Loaded (Ok res)) [] (kernel_load res) (payload (rd_data r)) [] Hw Htt Hsep Hall);
      [exists O; split; reflexivity|left; eauto|reflexivity|intros s []].
  - assert (Hptr : guest_uint m2 (z + 0x228) 4 = addr).
    { pose proof (Hg [Fld "hdr"; Fld "cmd_line_ptr"] 0x228 4) as G. unfold guest_sees in G. rewrite Hlast in G. change (N.to_nat 4) with 4%nat in G. rewrite G.
      - apply N.mod_small. exact Haddr.
      - apply (zp_hdr "cmd_line_ptr" 0x37 4). vm_compute. tauto.
      - exact Hwf. }
    rewrite Hptr. destruct Hcl as (i & I1 & I2).
    (* the call succeeded, so there is a string *)
    assert (Hok : exists s, as_cstring c = Ok s /\ ~ In x00 s).
    { destruct (nth_error_split _ _ I1) as (l1 & l2 & El & Ei). subst ts.
      assert (Hw1 : wf_mem m1 = true) by (rewrite <- Hw; apply wf_mem_regions; apply (C56_success_writes _ _ _ _ _ _ Hw Ht E); left; eauto).
      rewrite perform_all_app in H. destruct (perform_all bld be l1 m1) as [n1 xs1] eqn:E1. cbn [perform_all] in H.
      destruct (perform bld be (LoadCmdline addr c) n1) as [n2 x2] eqn:E2. destruct (perform_all bld be l2 n2) as [n3 xs3] eqn:E3. inversion H; subst n3 xs.
      rewrite nth_error_app2 in I2 by (rewrite (perform_all_length _ _ _ _ _ _ E1); lia).
      rewrite (perform_all_length _ _ _ _ _ _ E1), Ei, Nat.sub_diag in I2. cbn in I2. inversion I2; subst x2. cbn [perform] in E2.
      destruct (load_cmdline bld be n1 addr c) as [n4 o] eqn:E4. inversion E2; subst.
      apply Forall_app in Hts as (Ht1 & _). destruct (perform_all_frame _ _ _ _ _ _ Hw1 Ht1 E1) as (Hwn & _).
      destruct (C18_load_cmdline_writes _ _ _ _ _ _ Hwn E4) as (s & Es & Hs & _). eauto. }
    destruct Hok as (s & Es & Hs). exists s. split; [exact Es|]. split; [|exact Hs].
    apply (C58_all_in_place bld be _ m m2 _ (LoadCmdline addr c) (Done (Ok tt)) [] addr (s ++ [x00]) [] Hw Htt Hsep Hall);
      [exists (S i); split; assumption|right; left; reflexivity|cbn [writes]; rewrite Es; reflexivity|intros q []].
  - intros n o s Hn Hne Hwn Hln. pose proof (Hg _ _ _ (zp_hdr n o s Hn) Hwn) as G. unfold guest_sees in G. rewrite Hln in G.
    replace (z + 497 + o) with (z + (497 + o)) by lia. rewrite G. eapply hdr_field_value; eassumption.
  - intros Hwn Hln. pose proof (Hg [Fld "hdr"; Fld "code32_start"] 0x214 4) as G. unfold guest_sees in G. rewrite Hln in G.
    change (N.to_nat 4) with 4%nat in G. rewrite G.
    + rewrite code32_field_value by assumption. exact H35.
    + apply (zp_hdr "code32_start" 35 4). vm_compute. tauto.
    + exact Hwn.
  - intros path o s v Hp Hwp Hlp. pose proof (Hg _ _ _ Hp Hwp) as G. unfold guest_sees in G. now rewrite Hlp in G.
Qed.

(** ** C64: a PVH boot.  The VMM loads an ELF kernel and then performs any calls on separate
    areas, among them the writing of the PVH parameters (whose three areas do not overlap) and of
    the command line.  Following the pointers in the start info, the guest finds the command
    line, the memory map and the modules; the kernel segments are in place. *)
Lemma cmdline_call_string bld be ts m m' xs addr c :
  wf_mem m = true -> Forall task_typed ts -> perform_all bld be ts m = (m', xs) ->
  reported ts xs (LoadCmdline addr c) (Done (Ok tt)) -> exists s, as_cstring c = Ok s /\ ~ In x00 s.
Proof.
  intros Hw Hts H (i & I1 & I2). destruct (nth_error_split _ _ I1) as (l1 & l2 & El & Ei). subst ts.
  rewrite perform_all_app in H. destruct (perform_all bld be l1 m) as [n1 xs1] eqn:E1. cbn [perform_all] in H.
  destruct (perform bld be (LoadCmdline addr c) n1) as [n2 x2] eqn:E2. destruct (perform_all bld be l2 n2) as [n3 xs3] eqn:E3. inversion H; subst n3 xs.
  rewrite nth_error_app2 in I2 by (rewrite (perform_all_length _ _ _ _ _ _ E1); lia).
  rewrite (perform_all_length _ _ _ _ _ _ E1), Ei, Nat.sub_diag in I2. cbn in I2. inversion I2; subst x2. cbn [perform] in E2.
  destruct (load_cmdline bld be n1 addr c) as [n4 o] eqn:E4. inversion E2; subst.
  apply Forall_app in Hts as (Ht1 & _). destruct (perform_all_frame _ _ _ _ _ _ Hw Ht1 E1) as (Hwn & _).
  destruct (C18_load_cmdline_writes _ _ _ _ _ _ Hwn E4) as (s & Es & Hs & _). eauto.
Qed.

Theorem C64_pvh_boot : forall bld be off highmem r m m1 res ts m2 xs p bs asg addr c,
  wf_mem m = true -> task_typed (LoadElf off highmem r) ->
  perform bld be (LoadElf off highmem r) m = (m1, Loaded (Ok res)) ->
  Forall task_typed ts -> all_separate (LoadElf off highmem r :: ts) -> perform_all bld be ts m1 = (m2, xs) ->
  reported ts xs (WritePvh p) (Written (Ok tt)) -> reported ts xs (LoadCmdline addr c) (Done (Ok tt)) ->
  header p = assign_all hvm_start_info asg bs -> lenN bs = 56 -> ForallOrdPairs disjoint (pvh_areas p) ->
  let z := header_start p in
  let points n (a : N) := whole_fields [Fld n] asg /\ last_value [Fld n] asg = Some a /\ a < 2 ^ 64 in
  (forall pre a sg post, segs_of (rd_data r) off (phdrs_of (rd_data r)) = pre ++ (a, sg) :: post ->
     (forall s, In s post -> disjoint (a, sg) s) -> holds_at m2 a sg) /\
  (points "cmdline_paddr" addr -> exists s, as_cstring c = Ok s /\ guest_string m2 (guest_uint m2 (z + 24) 8) s) /\
  (forall a v, sections_start p = Some a -> sections p = Some v -> points "memmap_paddr" a ->
     holds_at m2 (guest_uint m2 (z + 40) 8) v) /\
  (forall a v, modules_start p = Some a -> modules p = Some v -> points "modlist_paddr" a ->
     holds_at m2 (guest_uint m2 (z + 16) 8) v) /\
  (forall n o s, listed abi_start_info n o s -> whole_fields [Fld n] asg ->
     guest_uint m2 (z + o) (N.to_nat s) =
       match last_value [Fld n] asg with Some v => v mod 256 ^ s | None => uint_at bs o (N.to_nat s) end).
Proof.
  intros until c. intros Hw Ht E Hts Hsep H Hpv Hcl Hh Hbs Hdis z points.
  assert (Hw1 : wf_mem m1 = true) by (rewrite <- Hw; apply wf_mem_regions; apply (C56_success_writes _ _ _ _ _ _ Hw Ht E); left; eauto).
  assert (Hall : perform_all bld be (LoadElf off highmem r :: ts) m = (m2, Loaded (Ok res) :: xs)).
  { cbn [perform_all]. rewrite E, H. reflexivity. }
  assert (Htt : Forall task_typed (LoadElf off highmem r :: ts)) by now constructor.
  assert (Harea : forall a v, In (a, v) (pvh_areas p) -> holds_at m2 a v).
  { intros a v Hin. apply in_split in Hin as (pre & post & Ep). destruct Hpv as (i & I1 & I2).
    apply (C58_all_in_place bld be _ m m2 _ (WritePvh p) (Written (Ok tt)) pre a v post Hw Htt Hsep Hall);
      [exists (S i); split; assumption|right; right; reflexivity|exact Ep|].
    rewrite Ep in Hdis. apply FOP_app_inv in Hdis. rewrite Forall_forall in Hdis. exact Hdis. }
  assert (Hz : holds_at m2 z (assign_all hvm_start_info asg bs)).
  { rewrite <- Hh. apply Harea. unfold pvh_areas. apply in_or_app. right. left. reflexivity. }
  assert (Hg : forall n o s, listed abi_start_info n o s -> whole_fields [Fld n] asg -> guest_sees hvm_start_info [Fld n] o s bs asg m2 z).
  { intros n o s Hn Hwn. destruct C53_boot_layouts as (_ & _ & _ & HL & _). destruct (place_field _ _ _ _ _ HL Hn) as (t' & El & <-).
    exact (guest_sees_held _ _ _ _ _ _ _ _ El Hbs Hwn Hz). }
  assert (Hptr : forall n o a, listed abi_start_info n o 8 -> points n a -> guest_uint m2 (z + o) 8 = a).
  { intros n o a Hn (P1 & P2 & P3). pose proof (Hg n o 8 Hn P1) as G. unfold guest_sees in G. rewrite P2 in G. change (N.to_nat 8) with 8%nat in G.
    rewrite G. apply N.mod_small. exact P3. }
  split; [|split; [|split; [|split]]].
  - intros pre a sg post Es Hd.
    apply (C58_all_in_place bld be _ m m2 _ (LoadElf off highmem r) (Loaded (Ok res)) pre a sg post Hw Htt Hsep Hall);
      [exists O; split; reflexivity|left; eauto|exact Es|exact Hd].
  - intros Hp. rewrite (Hptr "cmdline_paddr"%string 24 addr); [|vm_compute; tauto|exact Hp].
    destruct (cmdline_call_string _ _ _ _ _ _ _ _ Hw1 Hts H Hcl) as (s & Es & Hs). exists s. split; [exact Es|]. split; [|exact Hs].
    destruct Hcl as (i & I1 & I2).
    apply (C58_all_in_place bld be _ m m2 _ (LoadCmdline addr c) (Done (Ok tt)) [] addr (s ++ [x00]) [] Hw Htt Hsep Hall);
      [exists (S i); split; assumption|right; left; reflexivity|cbn [writes]; rewrite Es; reflexivity|intros q []].
  - intros a v S1 S2 Hp. rewrite (Hptr "memmap_paddr"%string 40 a); [|vm_compute; tauto|exact Hp].
    apply Harea. unfold pvh_areas. rewrite S1, S2. left. reflexivity.
  - intros a v S1 S2 Hp. rewrite (Hptr "modlist_paddr"%string 16 a); [|vm_compute; tauto|exact Hp].
    apply Harea. unfold pvh_areas. rewrite S1, S2. apply in_or_app. right. right. left. reflexivity.
  - intros n o s Hn Hwn. exact (Hg n o s Hn Hwn).
Qed.

(** ** Concrete boots meeting the hypotheses. *)
Definition boot_line : cmdline := demo true.
Definition boot_asg : list (list step * N) :=
  [ ([Fld "hdr"; Fld "type_of_loader"], 0xff); ([Fld "hdr"; Fld "cmd_line_ptr"], 0x9000); ([Fld "e820_entries"], 1);
    ([Fld "e820_table"; Idx 0; Fld "size"], 0x10000) ].
Definition boot_page (h : bytes) : boot_info :=
  bp_new (assign_all boot_params boot_asg (set_bytes boot_params [Fld "hdr"] h (default_of boot_params))) 0x7000.
Definition boot_bz : task := LoadBz (Some 0x4000) None (plain_reader demo_bz).
Lemma boot_bz_area x : touches boot_bz x -> 0x4000 <= x < 0x4008.
Proof.
  intros (k & [ -> |Hs] & Hr); [|exfalso; refine (quiet_plain demo_bz _ (or_intror Hs)); reflexivity].
  unfold in_range in Hr.
  change (bz_load_addr (seen (rd_data (plain_reader demo_bz)) 123) (Some 0x4000)) with 0x4000 in Hr.
  assert (El : lenN (payload (rd_data (plain_reader demo_bz))) = 8) by (vm_compute; reflexivity). rewrite El in Hr. lia.
Qed.
Lemma boot_line_area x : touches (LoadCmdline 0x9000 boot_line) x -> 0x9000 <= x < 0x9100.
Proof. intros H. cbn [touches] in H. vm_compute as_cstring in H. unfold in_range, lenN in H. cbn in H. lia. Qed.
Definition boot_res : load_result :=
  match snd (perform true TryAccess boot_bz demo_mem) with Loaded (Ok res) => res | _ => mkResult 0 0 None PvhEntryIgnored end.
Definition boot_h : bytes := match result_header boot_res with Some h => h | None => [] end.
Definition boot_m1 (be : backend) : gmem := fst (perform true be boot_bz demo_mem).
Definition boot_m2 (be : backend) : gmem := fst (perform_all true be [LoadCmdline 0x9000 boot_line; WriteLinux (boot_page boot_h)] (boot_m1 be)).
Lemma pair_up {A B} (x : A * B) b : snd x = b -> x = (fst x, b).
Proof. destruct x. cbn. now intros ->. Qed.
Example C63_applies : forall be, exists m1 res h m2,
  perform true be boot_bz demo_mem = (m1, Loaded (Ok res)) /\ task_typed boot_bz /\ result_header res = Some h /\
  let ts := [LoadCmdline 0x9000 boot_line; WriteLinux (boot_page h)] in
  all_separate (boot_bz :: ts) /\ Forall task_typed ts /\
  perform_all true be ts m1 = (m2, [Done (Ok tt); Written (Ok tt)]) /\
  last_value [Fld "hdr"; Fld "cmd_line_ptr"] boot_asg = Some 0x9000 /\ whole_fields [Fld "hdr"; Fld "cmd_line_ptr"] boot_asg /\
  guest_uint m2 0x7228 4 = 0x9000 /\ guest_uint m2 0x7214 4 = 0x4000 /\ guest_uint m2 0x7202 4 = 0x53726448 /\
  peek m2 0x9000 13 = utf8 (txt "console=ttyS0").
Proof.
  intros be. exists (boot_m1 be), boot_res, boot_h, (boot_m2 be).
  split; [unfold boot_m1; destruct be; apply pair_up; vm_compute; reflexivity|].
  split. { split; [apply plain_wf; reflexivity|]. split; [vm_compute; discriminate|]. intros a Ea. inversion Ea. reflexivity. }
  split; [vm_compute; reflexivity|]. cbv zeta. split; [|split].
  - assert (Hp : forall h x, lenN h = 123 -> touches (WriteLinux (boot_page h)) x -> 0x7000 <= x < 0x8000).
    { intros h x Hh Hx. unfold touches, in_range in Hx. cbn [header_start header boot_page bp_new] in Hx.
      rewrite (lenN_assign boot_params) in Hx by (apply len_set_hdr; [vm_compute; reflexivity|exact Hh]).
      change (size boot_params) with 4096 in Hx. lia. }
    apply FOP_cons; [apply Forall_cons; [|apply Forall_cons; [|apply Forall_nil]]|apply FOP_cons; [apply Forall_cons; [|apply Forall_nil]|apply FOP_cons; [apply Forall_nil|apply FOP_nil]]].
    + intros x H1 H2. apply boot_bz_area in H1. apply boot_line_area in H2. lia.
    + intros x H1 H2. apply boot_bz_area in H1. apply Hp in H2; [lia|vm_compute; reflexivity].
    + intros x H1 H2. apply boot_line_area in H1. apply Hp in H2; [lia|vm_compute; reflexivity].
  - repeat constructor.
  - split; [unfold boot_m2; destruct be; apply pair_up; vm_compute; reflexivity|]. split; [reflexivity|]. split.
    { intros q v [H|[H|[H|[H|[]]]]]; inversion H; subst;
        try (left; reflexivity); right; repeat (first [apply div_fld; discriminate|apply div_idx; discriminate|apply div_step]). }
    destruct be; (split; [vm_compute; reflexivity|]; split; [vm_compute; reflexivity|]; split; vm_compute; reflexivity).
Qed.

Definition pvh_asg : list (list step * N) :=
  [ ([Fld "magic"], 0x336ec578); ([Fld "version"], 1); ([Fld "cmdline_paddr"], 0x9000); ([Fld "memmap_paddr"], 0x7100);
    ([Fld "memmap_entries"], 1); ([Fld "modlist_paddr"], 0x7200); ([Fld "nr_modules"], 1) ].
Definition pvh_entry : bytes := assign_all hvm_memmap_table_entry [([Fld "addr"], 0); ([Fld "size"], 0x10000); ([Fld "type_"], 1)] (default_of hvm_memmap_table_entry).
Definition pvh_module : bytes := assign_all hvm_modlist_entry [([Fld "paddr"], 0x6000); ([Fld "size"], 16)] (default_of hvm_modlist_entry).
Definition pvh_params : boot_info :=
  set_modules (set_sections (bp_new (assign_all hvm_start_info pvh_asg (default_of hvm_start_info)) 0x7000) [pvh_entry] 0x7100) [pvh_module] 0x7200.
Example C64_applies : forall be, exists m1 res m2,
  let elf := LoadElf None None (plain_reader demo_elf) in
  let ts := [WritePvh pvh_params; LoadCmdline 0x9000 boot_line] in
  perform true be elf demo_mem = (m1, Loaded (Ok res)) /\ task_typed elf /\
  all_separate (elf :: ts) /\ Forall task_typed ts /\ ForallOrdPairs disjoint (pvh_areas pvh_params) /\
  perform_all true be ts m1 = (m2, [Written (Ok tt); Done (Ok tt)]) /\
  whole_fields [Fld "cmdline_paddr"] pvh_asg /\ last_value [Fld "cmdline_paddr"] pvh_asg = Some 0x9000 /\
  guest_uint m2 (0x7000 + 24) 8 = 0x9000 /\ guest_uint m2 (guest_uint m2 (0x7000 + 40) 8 + 8) 8 = 0x10000 /\
  guest_uint m2 (guest_uint m2 (0x7000 + 16) 8) 8 = 0x6000 /\ pvh_boot_cap res = PvhEntryPresent 0x1000040.
Proof.
  intros be. do 3 eexists. cbv zeta. split; [destruct be; vm_compute; reflexivity|].
  split; [apply plain_wf; reflexivity|]. split.
  - assert (Hp : forall x, touches (WritePvh pvh_params) x -> 0x7000 <= x < 0x7220).
    { intros x (s & Hs & Hr). unfold in_range in Hr. assert (L : lenN (snd s) <= 56 /\ (fst s = 0x7000 \/ fst s = 0x7100 /\ lenN (snd s) = 24 \/ fst s = 0x7200 /\ lenN (snd s) = 32)).
      { destruct Hs as [<-|[<-|[<-|[]]]]; vm_compute; intuition discriminate. }
      lia. }
    apply FOP_cons; [apply Forall_cons; [|apply Forall_cons; [|apply Forall_nil]]|apply FOP_cons; [apply Forall_cons; [|apply Forall_nil]|apply FOP_cons; [apply Forall_nil|apply FOP_nil]]].
    + intros x H1 H2. apply demo_elf_area in H1. apply Hp in H2. lia.
    + intros x H1 H2. apply demo_elf_area in H1. apply boot_line_area in H2. lia.
    + intros x H1 H2. apply Hp in H1. apply boot_line_area in H2. lia.
  - split; [repeat constructor|]. split.
    { assert (D : forall a u b v, a + lenN u <= b \/ b + lenN v <= a -> disjoint (a, u) (b, v)).
      { intros a u b v H x [H1 H2] [H3 H4]. cbn [fst snd] in *. lia. }
      unfold pvh_areas. cbn [sections_start sections modules_start modules pvh_params set_modules set_sections bp_new header_start header app].
      apply FOP_cons; [apply Forall_cons; [|apply Forall_cons; [|apply Forall_nil]]|apply FOP_cons; [apply Forall_cons; [|apply Forall_nil]|apply FOP_cons; [apply Forall_nil|apply FOP_nil]]];
        apply D; vm_compute; intuition discriminate. }
    split; [destruct be; vm_compute; reflexivity|]. split.
    { intros q v [H|[H|[H|[H|[H|[H|[H|[]]]]]]]]; inversion H; subst;
        try (left; reflexivity); right; repeat (first [apply div_fld; discriminate|apply div_idx; discriminate|apply div_step]). }
    split; [reflexivity|]. destruct be; (split; [vm_compute; reflexivity|]; split; [vm_compute; reflexivity|]; split; vm_compute; reflexivity).
Qed.

(** C62: a builder of capacity 128, its text loaded at 0x9000 and then a header page elsewhere. *)
Example C62_applies : exists m' c0,
  let line := LoadCmdline 0x9000 (run_ops true c0 demo_ops) in
  run_ctor (New 128) = Ok c0 /\ ctor_typed (New 128) /\ Forall task_typed [line; WriteLinux demo_hdr] /\
  perform_all true TryAccess ([] ++ line :: [WriteLinux demo_hdr]) demo_mem = (m', [Done (Ok tt); Written (Ok tt)]) /\
  (forall u y, In u [WriteLinux demo_hdr] -> touches u y -> ~ in_range 0x9000 (ctor_cap (New 128)) y) /\
  peek m' 0x9000 77 = utf8 (txt "console=ttyS0 virtio_mmio.device=4K@0xd0000000:5:2 quiet a=1,2 -- --verbose") ++ [x00; xff].
Proof.
  do 2 eexists. cbv zeta. split; [reflexivity|]. split; [vm_compute; reflexivity|]. split; [repeat constructor|].
  split; [vm_compute; reflexivity|]. split; [|vm_compute; reflexivity].
  intros u y [<-|[]] Hy (R1 & R2). apply demo_other_areas in Hy. cbn in R2. lia.
Qed.
