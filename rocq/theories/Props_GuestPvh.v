(** * Props_GuestPvh: what Linux makes of the PVH start info (C108). *)
From Coq Require Import ZArith.
From Verif Require Import Base Base_proofs Io Mem SpecMem Mem_proofs Layout SpecFile File_proofs Text Cmdline SpecCmdline Text_proofs Cmdline_proofs
  Cmdline_proofs2 Cmdline_proofs3 Loader Elf SpecElf
  BzImage SpecBz Bz_proofs Pe SpecPe BootParams Configurators SpecBoot SpecAbi Layout_proofs Demo_elf SpecVmm Vmm_proofs
  Props_Cmdline Props_Loader Props_Elf Props_Bz Props_Config Props_Boot Props_Abi Props_Vmm Props_Boot_e2e SpecKernel Props_Kernel SpecDriver Props_Driver SpecGuest Props_Guest.
Local Open Scope list_scope.

Lemma holds_cut m a x y : holds_at m a (x ++ y) -> holds_at m a x /\ holds_at m (a + lenN x) y.
Proof.
  intros H. split; intros i b Hi.
  - apply H. rewrite nth_error_app1; [exact Hi|]. apply nth_error_Some. congruence.
  - replace (a + lenN x + i) with (a + (lenN x + i)) by lia. apply H. rewrite nth_error_app2 by (unfold lenN; lia).
    replace (N.to_nat (lenN x + i) - length x)%nat with (N.to_nat i) by (unfold lenN; lia). exact Hi.
Qed.
Ltac whole := intros q v Hin; cbn [In] in Hin; repeat (destruct Hin as [Hin|Hin]; [injection Hin as <- _; first [left; reflexivity|right; apply div_fld; discriminate]|]); destruct Hin.
Ltac decided := cbn [last_value];
  repeat match goal with |- context [list_eq_dec step_eq_dec ?x ?y] => destruct (list_eq_dec step_eq_dec x y) as [?|?]; try congruence end.
Lemma memmap_entry_len e : lenN (memmap_entry e) = 24.
Proof. destruct e as [[a s] t]. unfold memmap_entry. rewrite lenN_assign by reflexivity. reflexivity. Qed.
Lemma modlist_entry_len e : lenN (modlist_entry e) = 32.
Proof. destruct e as [a s]. unfold modlist_entry. rewrite lenN_assign by reflexivity. reflexivity. Qed.

Lemma memmap_entry_read m adr a s t : a < 2 ^ 64 -> s < 2 ^ 64 -> t < 2 ^ 32 -> holds_at m adr (memmap_entry (a, s, t)) ->
  guest_uint m adr 8 = a /\ guest_uint m (adr + 8) 8 = s /\ guest_uint m (adr + 16) 4 = t.
Proof.
  intros Ha Hs Ht H. unfold memmap_entry in H.
  set (asg := [([Fld "addr"], a); ([Fld "size"], s); ([Fld "type_"], t)]) in *.
  assert (G : forall n o w, listed abi_memmap_entry n o w -> whole_fields [Fld n] asg ->
    guest_sees hvm_memmap_table_entry [Fld n] o w (default_of hvm_memmap_table_entry) asg m adr).
  { intros n o w Hl Hw. exact (C54_list_entries hvm_memmap_table_entry abi_memmap_entry m adr n o w (default_of hvm_memmap_table_entry) asg (or_introl (conj eq_refl eq_refl)) Hl eq_refl Hw H). }
  unfold guest_sees in G.
  assert (G1 := G "addr"%string 0 8 ltac:(vm_compute; tauto) ltac:(unfold asg; whole)).
  assert (G2 := G "size"%string 8 8 ltac:(vm_compute; tauto) ltac:(unfold asg; whole)).
  assert (G3 := G "type_"%string 16 4 ltac:(vm_compute; tauto) ltac:(unfold asg; whole)).
  change (N.to_nat 8) with 8%nat in *. change (N.to_nat 4) with 4%nat in *. rewrite N.add_0_r in G1. rewrite G1, G2, G3. unfold asg. decided.
  split; [|split]; apply N.mod_small; assumption.
Qed.
Lemma modlist_entry_read m adr a s : a < 2 ^ 64 -> s < 2 ^ 64 -> holds_at m adr (modlist_entry (a, s)) ->
  guest_uint m adr 8 = a /\ guest_uint m (adr + 8) 8 = s.
Proof.
  intros Ha Hs H. unfold modlist_entry in H. set (asg := [([Fld "paddr"], a); ([Fld "size"], s)]) in *.
  assert (G : forall n o w, listed abi_modlist_entry n o w -> whole_fields [Fld n] asg ->
    guest_sees hvm_modlist_entry [Fld n] o w (default_of hvm_modlist_entry) asg m adr).
  { intros n o w Hl Hw. exact (C54_list_entries hvm_modlist_entry abi_modlist_entry m adr n o w (default_of hvm_modlist_entry) asg (or_intror (conj eq_refl eq_refl)) Hl eq_refl Hw H). }
  unfold guest_sees in G.
  assert (G1 := G "paddr"%string 0 8 ltac:(vm_compute; tauto) ltac:(unfold asg; whole)).
  assert (G2 := G "size"%string 8 8 ltac:(vm_compute; tauto) ltac:(unfold asg; whole)).
  change (N.to_nat 8) with 8%nat in *. rewrite N.add_0_r in G1. rewrite G1, G2. unfold asg. decided.
  split; apply N.mod_small; assumption.
Qed.
Lemma memmap_read m ram : map_typed ram -> forall adr, holds_at m adr (concat (map memmap_entry ram)) -> memmap_from m adr (length ram) = ram.
Proof.
  induction ram as [|[[a s] t] r IH]; intros T adr H; [reflexivity|]. cbn [map concat] in H. apply holds_cut in H as [H1 H2].
  rewrite memmap_entry_len in H2. destruct (T a s t (or_introl eq_refl)) as (Ta & Ts & Tt & _).
  destruct (memmap_entry_read m adr a s t Ta Ts Tt H1) as (E1 & E2 & E3). cbn [length memmap_from]. rewrite E1, E2, E3. f_equal.
  apply IH; [|exact H2]. intros a' s' t' Hin. apply (T a' s' t'). right; exact Hin.
Qed.

(** ** C108 *)
Definition isa_room (n : N) : list (N * N * N) := if n <? 127 then [isa] else [].
(** The ramdisk is the first module. *)
Definition first_module (mods : list (N * N)) : option (N * N) := match mods with [] => None | (a, s) :: _ => ramdisk_of 1 a s end.
Definition mods_typed (mods : list (N * N)) : Prop := forall a s, In (a, s) mods -> a < 2 ^ 32 /\ s < 2 ^ 32.

Lemma start_info_view m z ram_at mods_at line ram mods s :
  map_typed ram -> 1 <= lenN ram <= 128 -> mods_typed mods -> lenN mods < 2 ^ 32 -> ram_at < 2 ^ 64 -> mods_at < 2 ^ 64 -> line < 2 ^ 32 ->
  holds_at m z (start_info_page ram_at (lenN ram) mods_at (lenN mods) line) ->
  holds_at m ram_at (concat (map memmap_entry ram)) -> holds_at m mods_at (concat (map modlist_entry mods)) ->
  guest_string m line s -> lenN s < 2048 ->
  view_start_info m z = Some (mkView (ram ++ isa_room (lenN ram)) (first_module mods) (map n8 s)).
Proof.
  intros T Ln Tm Lm Hr Hm Hl H Hram Hmods Gs Ls. unfold start_info_page in H.
  set (asg := [ ([Fld "magic"], 0x336ec578); ([Fld "version"], 1); ([Fld "nr_modules"], lenN mods); ([Fld "modlist_paddr"], mods_at);
      ([Fld "cmdline_paddr"], line); ([Fld "memmap_paddr"], ram_at); ([Fld "memmap_entries"], lenN ram) ]) in *.
  assert (G : forall n o w, listed abi_start_info n o w -> whole_fields [Fld n] asg -> guest_sees hvm_start_info [Fld n] o w (default_of hvm_start_info) asg m z).
  { intros n o w Hn Hwn. destruct C53_boot_layouts as (_ & _ & _ & HL & _). destruct (place_field _ _ _ _ _ HL Hn) as (t' & El & <-).
    exact (guest_sees_held _ _ _ _ (default_of hvm_start_info) _ _ _ El eq_refl Hwn H). }
  unfold guest_sees in G.
  assert (G0 := G "magic"%string 0 4 ltac:(vm_compute; tauto) ltac:(unfold asg; whole)).
  assert (G1 := G "version"%string 4 4 ltac:(vm_compute; tauto) ltac:(unfold asg; whole)).
  assert (G2 := G "nr_modules"%string 12 4 ltac:(vm_compute; tauto) ltac:(unfold asg; whole)).
  assert (G3 := G "modlist_paddr"%string 16 8 ltac:(vm_compute; tauto) ltac:(unfold asg; whole)).
  assert (G4 := G "cmdline_paddr"%string 24 8 ltac:(vm_compute; tauto) ltac:(unfold asg; whole)).
  assert (G5 := G "memmap_paddr"%string 40 8 ltac:(vm_compute; tauto) ltac:(unfold asg; whole)).
  assert (G6 := G "memmap_entries"%string 48 4 ltac:(vm_compute; tauto) ltac:(unfold asg; whole)).
  assert (V0 : last_value [Fld "magic"] asg = Some 0x336ec578) by (unfold asg; decided; reflexivity). rewrite V0 in G0. clear V0.
  assert (V0 : last_value [Fld "version"] asg = Some 1) by (unfold asg; decided; reflexivity). rewrite V0 in G1. clear V0.
  assert (V0 : last_value [Fld "nr_modules"] asg = Some (lenN mods)) by (unfold asg; decided; reflexivity). rewrite V0 in G2. clear V0.
  assert (V0 : last_value [Fld "modlist_paddr"] asg = Some mods_at) by (unfold asg; decided; reflexivity). rewrite V0 in G3. clear V0.
  assert (V0 : last_value [Fld "cmdline_paddr"] asg = Some line) by (unfold asg; decided; reflexivity). rewrite V0 in G4. clear V0.
  assert (V0 : last_value [Fld "memmap_paddr"] asg = Some ram_at) by (unfold asg; decided; reflexivity). rewrite V0 in G5. clear V0.
  assert (V0 : last_value [Fld "memmap_entries"] asg = Some (lenN ram)) by (unfold asg; decided; reflexivity). rewrite V0 in G6. clear V0.
  change (N.to_nat 8) with 8%nat in *. change (N.to_nat 4) with 4%nat in *.
  change (256 ^ 8) with (2 ^ 64) in *. change (256 ^ 4) with (2 ^ 32) in *. rewrite N.add_0_r in G0.
  assert (P : 2 ^ 32 < 2 ^ 64) by reflexivity.
  rewrite (N.mod_small (lenN mods)) in G2 by exact Lm. rewrite (N.mod_small mods_at) in G3 by exact Hm.
  rewrite (N.mod_small line) in G4 by (apply N.lt_trans with (2 ^ 32); assumption). rewrite (N.mod_small ram_at) in G5 by exact Hr.
  rewrite (N.mod_small (lenN ram)) in G6 by (change (2 ^ 32) with 4294967296; lia).
  clear G asg H. unfold view_start_info. cbv zeta. rewrite G0, G1, G2, G3, G4, G5, G6.
  change (0x336ec578 mod 2 ^ 32 =? 0x336ec578) with true. change (1 mod 2 ^ 32 =? 0) with false. cbn [negb orb].
  destruct (N.eqb_spec (lenN ram) 0) as [Z|_]; [lia|]. rewrite (N.mod_small (lenN ram)) by (change (2 ^ 8) with 256; lia).
  unfold lenN at 1. rewrite Nat2N.id, (memmap_read m ram T ram_at Hram).
  change (if lenN ram <? 127 then [isa] else []) with (isa_room (lenN ram)).
  assert (U : usable (ram ++ isa_room (lenN ram)) = Some (ram ++ isa_room (lenN ram))).
  { apply usable_typed.
    - intros a x t Hin. apply in_app_iff in Hin as [Hin|Hin]; [exact (T a x t Hin)|]. unfold isa_room in Hin.
      destruct (lenN ram <? 127); [|destruct Hin]. destruct Hin as [Hin|[]]. unfold isa in Hin. injection Hin as <- <- <-. repeat split; reflexivity || discriminate.
    - rewrite app_length. unfold isa_room, lenN in *. destruct (N.ltb_spec (N.of_nat (length ram)) 127); cbn [length]; lia. }
  rewrite U. rewrite (N.mod_small line) by exact Hl. rewrite (line_at_string m line s Ls Gs). do 2 f_equal.
  destruct mods as [|[a x] mods]; [reflexivity|]. assert (lenN ((a, x) :: mods) =? 0 = false) as -> by (unfold lenN; cbn [length]; lia).
  cbn [map concat] in Hmods. apply holds_cut in Hmods as [Hm1 _]. destruct (Tm a x (or_introl eq_refl)) as (Ta & Tx).
  destruct (modlist_entry_read m mods_at a x) as (E1 & E2); [apply N.lt_trans with (2 ^ 32); assumption|apply N.lt_trans with (2 ^ 32); assumption|exact Hm1|].
  rewrite E1, E2, !N.mod_small by assumption. reflexivity.
Qed.

(** The VMM loads an ELF kernel and performs any calls on separate areas in any order, among them the writing of PVH parameters (three areas
    that do not overlap) and of the command line.  The start info points to the memory map, the modules and the command line.  Then Linux
    has exactly that memory map (followed by the reserved ISA range, if there is room), the first module as its ramdisk, and that command line. *)
Theorem C108_pvh_boot : forall bld be off highmem r m m1 res ts m2 xs p ram_at mods_at line c ram mods,
  wf_mem m = true -> task_typed (LoadElf off highmem r) ->
  perform bld be (LoadElf off highmem r) m = (m1, Loaded (Ok res)) ->
  header p = start_info_page ram_at (lenN ram) mods_at (lenN mods) line ->
  sections p = Some (concat (map memmap_entry ram)) -> sections_start p = Some ram_at ->
  (mods <> [] -> modules p = Some (concat (map modlist_entry mods)) /\ modules_start p = Some mods_at) ->
  map_typed ram -> 1 <= lenN ram <= 128 -> mods_typed mods -> lenN mods < 2 ^ 32 -> ram_at < 2 ^ 64 -> mods_at < 2 ^ 64 -> line < 2 ^ 32 ->
  Forall task_typed ts -> all_separate (LoadElf off highmem r :: ts) -> perform_all bld be ts m1 = (m2, xs) -> ForallOrdPairs disjoint (pvh_areas p) ->
  reported ts xs (WritePvh p) (Written (Ok tt)) -> reported ts xs (LoadCmdline line c) (Done (Ok tt)) ->
  exists s, as_cstring c = Ok s /\
    (lenN s < 2048 -> view_start_info m2 (header_start p) = Some (mkView (ram ++ isa_room (lenN ram)) (first_module mods) (map n8 s))).
Proof.
  intros until mods. intros Hw Ht E Hh S1 S2 Hmod T Ln Tm Lm Hr Hma Hl Hts Hsep H Hdis Hpv Hcl.
  pose proof (loaded_wf _ _ _ _ _ _ Hw Ht E) as Hw1.
  assert (Htt : Forall task_typed (LoadElf off highmem r :: ts)) by (constructor; assumption).
  assert (Hall : perform_all bld be (LoadElf off highmem r :: ts) m = (m2, Loaded (Ok res) :: xs)) by (cbn [perform_all]; rewrite E, H; reflexivity).
  assert (Harea : forall a v, In (a, v) (pvh_areas p) -> holds_at m2 a v).
  { intros a v Hin. apply in_split in Hin as (pre & post & Ep). destruct Hpv as (i & I1 & I2).
    apply (C58_all_in_place bld be _ m m2 _ (WritePvh p) (Written (Ok tt)) pre a v post Hw Htt Hsep Hall);
      [exists (S i); split; assumption|right; right; reflexivity|exact Ep|].
    rewrite Ep in Hdis. apply FOP_app_inv in Hdis. rewrite Forall_forall in Hdis. exact Hdis. }
  destruct (string_in_place _ _ _ _ _ _ _ _ _ _ _ Hw Hw1 Htt Hsep E H Hcl) as (s & Es & Gs). exists s. split; [exact Es|]. intros Ls.
  apply (start_info_view m2 (header_start p) ram_at mods_at line ram mods s T Ln Tm Lm Hr Hma Hl); [| | |exact Gs|exact Ls].
  - rewrite <- Hh. apply Harea. unfold pvh_areas. apply in_or_app. right. left. reflexivity.
  - apply Harea. unfold pvh_areas. rewrite S1, S2. left. reflexivity.
  - destruct mods as [|e mods]; [intros i b Hi; destruct (N.to_nat i); discriminate|]. destruct Hmod as [M1 M2]; [discriminate|].
    apply Harea. unfold pvh_areas. rewrite M1, M2. apply in_or_app. right. right. left. reflexivity.
Qed.

(** With the calls that built the command line (compare [C107_linux_has]). *)
Theorem C108_linux_has : forall bld be off highmem r m m1 res ts m2 xs p ram_at mods_at line ram mods cap c0 os ps is qs,
  wf_mem m = true -> task_typed (LoadElf off highmem r) ->
  perform bld be (LoadElf off highmem r) m = (m1, Loaded (Ok res)) ->
  header p = start_info_page ram_at (lenN ram) mods_at (lenN mods) line ->
  sections p = Some (concat (map memmap_entry ram)) -> sections_start p = Some ram_at ->
  (mods <> [] -> modules p = Some (concat (map modlist_entry mods)) /\ modules_start p = Some mods_at) ->
  map_typed ram -> 1 <= lenN ram <= 128 -> mods_typed mods -> lenN mods < 2 ^ 32 -> ram_at < 2 ^ 64 -> mods_at < 2 ^ 64 -> line < 2 ^ 32 ->
  cap <= 2048 -> cmdline_new cap = Ok c0 -> tells bld c0 os ps is (run_ops bld c0 os) -> adds bld c0 os qs (run_ops bld c0 os) ->
  Forall sensible qs -> ids_fit 0 qs ->
  Forall task_typed ts -> all_separate (LoadElf off highmem r :: ts) -> perform_all bld be ts m1 = (m2, xs) -> ForallOrdPairs disjoint (pvh_areas p) ->
  reported ts xs (WritePvh p) (Written (Ok tt)) -> reported ts xs (LoadCmdline line (run_ops bld c0 os)) (Done (Ok tt)) ->
  exists v, view_start_info m2 (header_start p) = Some v /\ linux_has v (ram ++ isa_room (lenN ram)) (first_module mods) ps is (expected 0 qs).
Proof.
  intros until qs. intros Hw Ht E Hh S1 S2 Hmod T Ln Tm Lm Hr Hma Hl Hc Ec Te Ad Hs Hf Hts Hsep H Hdis Hpv Hcl.
  destruct (C108_pvh_boot _ _ _ _ _ _ _ _ _ _ _ _ _ _ _ _ _ _ Hw Ht E Hh S1 S2 Hmod T Ln Tm Lm Hr Hma Hl Hts Hsep H Hdis Hpv Hcl) as (s & Es & V).
  assert (Hc64 : cap < 2 ^ 64) by (apply N.le_lt_trans with 2048; [exact Hc|reflexivity]).
  eexists. split; [exact (V (line_short _ _ _ _ _ Hc Ec Es))|]. unfold linux_has. cbn [memory_map ramdisk command_line].
  split; [reflexivity|]. split; [reflexivity|].
  split; [exact (C76_kernel_sees_inserted_new bld cap c0 os ps is _ s Hc64 Ec Te Es)|exact (C106_devices bld cap c0 os qs _ s Hc64 Ec Ad Es Hs Hf)].
Qed.
