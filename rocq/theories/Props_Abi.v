(** * Props_Abi: binary layouts and their use, properties C53-C55.

    The tables of SpecAbi.v are written from the published documents.  [locate t path] is the
    compiler's answer to offset_of!, computed from the struct declarations by the repr(C) rules;
    [size t] is size_of. *)
From Verif Require Import Base Base_proofs Io Mem SpecMem Mem_proofs SpecFile File_proofs Layout SpecAbi Layout_proofs Loader BzImage BootParams SpecBoot
  Configurators SpecBz Bz_proofs Props_Bz Props_Config Boot_proofs Props_Boot Demo_elf.

(** ** C53 *)
Definition padding (n : string) : Prop := String.prefix "_pad" n = true.
(** The structure has the published size; every listed field is there, at the published offset and
    with the published size; and it has no other field, except padding. *)
Definition has_layout (t : ty) (a : abi) : Prop :=
  size t = fst a /\
  (forall n o s, listed a n o s -> exists t', locate t [Fld n] = Some (o, t') /\ size t' = s) /\
  (forall n o t', locate t [Fld n] = Some (o, t') -> listed a n o (size t') \/ padding n).

Fixpoint field_list (p : bool) (o : N) (fs : list (string * ty)) : list (string * N * N) :=
  match fs with [] => [] | (n, t) :: r => (n, place p o t, size t) :: field_list p (place p o t + size t) r end.
Lemma find_field_list p fs n : forall o fo t, find_field p o fs n = Some (fo, t) -> In (n, fo, size t) (field_list p o fs).
Proof.
  induction fs as [|[n0 t0] fs IH]; intros o fo t H; cbn [find_field field_list] in *; [discriminate|].
  destruct (String.eqb_spec n0 n); [inversion H; subst; now left|]. right. now apply IH.
Qed.
Definition entry_eqb (x y : string * N * N) : bool :=
  match x, y with (n, o, s), (n', o', s') => String.eqb n n' && (o =? o') && (s =? s') end.
Lemma entry_eqb_eq x y : entry_eqb x y = true -> x = y.
Proof. destruct x as [[n o] s], y as [[n' o'] s']. cbn. rewrite !andb_true_iff, String.eqb_eq, !N.eqb_eq. intuition congruence. Qed.
Definition layout_check (t : ty) (a : abi) : bool :=
  (size t =? fst a) &&
  forallb (fun e => match e with (n, o, s) => match locate t [Fld n] with Some (o', t') => (o =? o') && (size t' =? s) | None => false end end) (snd a) &&
  match t with
  | Struct p fs => forallb (fun e => existsb (entry_eqb e) (snd a) || String.prefix "_pad" (fst (fst e))) (field_list p 0 fs)
  | _ => false
  end.
Lemma layout_check_sound t a : layout_check t a = true -> has_layout t a.
Proof.
  unfold layout_check. rewrite !andb_true_iff, N.eqb_eq, forallb_forall. intros [[H1 H2] H3]. split; [exact H1|]. split.
  - intros n o s Hin. specialize (H2 _ Hin). cbv beta in H2. cbn beta iota in H2. destruct (locate t [Fld n]) as [[o' t']|]; [|discriminate].
    rewrite andb_true_iff, !N.eqb_eq in H2. destruct H2 as [<- <-]. eauto.
  - destruct t as [ | | | | |p fs]; try discriminate. rewrite forallb_forall in H3. intros n o t' H. cbn [locate] in H.
    destruct (find_field p 0 fs n) as [[fo ft]|] eqn:E; [|discriminate]. inversion H; subst. apply find_field_list in E.
    specialize (H3 _ E). cbv beta in H3. rewrite orb_true_iff, existsb_exists in H3. destruct H3 as [(e & He & Heq)|H3].
    + apply entry_eqb_eq in Heq. subst e. left. unfold listed. rewrite N.add_0_r. exact He.
    + right. exact H3.
Qed.

Theorem C53_boot_layouts :
  has_layout boot_params abi_boot_params /\ has_layout setup_header abi_setup_header /\ has_layout boot_e820_entry abi_e820_entry /\
  has_layout hvm_start_info abi_start_info /\ has_layout hvm_modlist_entry abi_modlist_entry /\
  has_layout hvm_memmap_table_entry abi_memmap_entry.
Proof. repeat match goal with |- _ /\ _ => split end; apply layout_check_sound; vm_compute; reflexivity. Qed.
Theorem C53_elf_layouts :
  has_layout Elf64_Ehdr abi_elf64_ehdr /\ has_layout Elf64_Phdr abi_elf64_phdr /\ has_layout Elf64_Nhdr abi_elf_nhdr /\
  has_layout Elf64_Shdr abi_elf64_shdr /\ has_layout Elf64_Sym abi_elf64_sym /\ has_layout Elf64_Rel abi_elf64_rel /\
  has_layout Elf64_Rela abi_elf64_rela /\ has_layout Elf64_Dyn abi_elf64_dyn /\
  has_layout Elf32_Ehdr abi_elf32_ehdr /\ has_layout Elf32_Phdr abi_elf32_phdr /\ has_layout Elf32_Shdr abi_elf32_shdr /\
  has_layout Elf32_Sym abi_elf32_sym /\ has_layout Elf32_Nhdr abi_elf_nhdr.
Proof. repeat match goal with |- _ /\ _ => split end; apply layout_check_sound; vm_compute; reflexivity. Qed.
Theorem C53_image_layouts : has_layout arm64_image_header abi_arm64_image /\ has_layout riscv64_image_header abi_riscv_image.
Proof. split; apply layout_check_sound; vm_compute; reflexivity. Qed.

(** Nested places of the zero page. *)
Lemma place_field t a n o s : has_layout t a -> listed a n o s -> exists t', locate t [Fld n] = Some (o, t') /\ size t' = s.
Proof. intros (_ & H & _). apply H. Qed.
Lemma locate_app p1 : forall t p2 o1 t1 o2 t2, locate t p1 = Some (o1, t1) -> locate t1 p2 = Some (o2, t2) -> locate t (p1 ++ p2) = Some (o1 + o2, t2).
Proof.
  induction p1 as [|[n|i] p1 IH]; intros t p2 o1 t1 o2 t2 H1 H2; cbn [locate app] in *.
  - inversion H1; subst. rewrite H2. reflexivity.
  - destruct t as [ | | | | |p fs]; try discriminate. destruct (find_field p 0 fs n) as [[a ft]|]; [|discriminate].
    destruct (locate ft p1) as [[b u]|] eqn:E; [|discriminate]. inversion H1; subst. rewrite (IH _ _ _ _ _ _ E H2). f_equal. f_equal. lia.
  - destruct t as [ | | | |k t| ]; try discriminate. destruct (i <? k); [|discriminate].
    destruct (locate t p1) as [[b u]|] eqn:E; [|discriminate]. inversion H1; subst. rewrite (IH _ _ _ _ _ _ E H2). f_equal. f_equal. lia.
Qed.
Theorem C53_zero_page_part_layouts :
  has_layout screen_info abi_screen_info /\ has_layout apm_bios_info abi_apm_bios_info /\
  has_layout ist_info abi_ist_info /\ has_layout edid_info abi_edid_info /\
  has_layout sys_desc_table abi_sys_desc_table /\ has_layout olpc_ofw_header abi_olpc_ofw_header /\
  has_layout efi_info abi_efi_info /\ has_layout edd_info abi_edd_info /\
  has_layout edd_device_params abi_edd_device_params.
Proof. repeat match goal with |- _ /\ _ => split end; apply layout_check_sound; vm_compute; reflexivity. Qed.
Theorem C53_other_elf_layouts :
  has_layout Elf32_Rel abi_elf32_rel /\ has_layout Elf32_Rela abi_elf32_rela /\ has_layout Elf32_Dyn abi_elf32_dyn /\
  has_layout Elf32_Verdef abi_elf_verdef /\ has_layout Elf64_Verdef abi_elf_verdef /\
  has_layout Elf32_Verdaux abi_elf_verdaux /\ has_layout Elf64_Verdaux abi_elf_verdaux.
Proof. repeat match goal with |- _ /\ _ => split end; apply layout_check_sound; vm_compute; reflexivity. Qed.
Lemma locate_elem t f k te start i p o t' : locate t [Fld f] = Some (start, Arr k te) -> i < k -> locate te p = Some (o, t') ->
  locate t (Fld f :: Idx i :: p) = Some (start + size te * i + o, t').
Proof.
  intros H1 Hi H2. change (Fld f :: Idx i :: p) with ([Fld f] ++ (Idx i :: p))%list.
  rewrite (locate_app [Fld f] t (Idx i :: p) start (Arr k te) (size te * i + o) t' H1); [f_equal; f_equal; lia|].
  cbn [locate]. rewrite (proj2 (N.ltb_lt _ _)) by assumption. rewrite H2. f_equal. f_equal. lia.
Qed.
Theorem C53_zero_page_places : forall path o s, zero_page_place path o s ->
  exists t, locate boot_params path = Some (o, t) /\ size t = s.
Proof.
  destruct C53_boot_layouts as (H1 & H2 & H3 & _).
  destruct C53_zero_page_part_layouts as (P1 & P2 & P3 & P4 & P5 & P6 & P7 & P8 & P9).
  intros path o s [n o' s' H|part start t n o' s' Hp H|i n o' s' Hi H|i Hi|i n o' s' Hi H|i n o' s' Hi H].
  - apply (place_field _ _ _ _ _ H1 H).
  - assert (G : exists pt, locate boot_params [Fld part] = Some (start, pt) /\ has_layout pt t).
    { unfold zero_page_parts in Hp. destruct Hp as [Hp|[Hp|[Hp|[Hp|[Hp|[Hp|[Hp|[Hp|[]]]]]]]]]; injection Hp as <- <- <-.
      - exists screen_info. split; [vm_compute; reflexivity|exact P1].
      - exists apm_bios_info. split; [vm_compute; reflexivity|exact P2].
      - exists ist_info. split; [vm_compute; reflexivity|exact P3].
      - exists sys_desc_table. split; [vm_compute; reflexivity|exact P5].
      - exists olpc_ofw_header. split; [vm_compute; reflexivity|exact P6].
      - exists edid_info. split; [vm_compute; reflexivity|exact P4].
      - exists efi_info. split; [vm_compute; reflexivity|exact P7].
      - exists setup_header. split; [vm_compute; reflexivity|exact H2]. }
    destruct G as (pt & E1 & HL). destruct (place_field _ _ _ _ _ HL H) as (t' & E & Es). exists t'. split; [|exact Es].
    apply (locate_app [Fld part] boot_params [Fld n] start pt); assumption.
  - destruct (place_field _ _ _ _ _ H3 H) as (t' & E & Es). exists t'. split; [|exact Es].
    apply (locate_elem boot_params "e820_table" 128 boot_e820_entry 0x2d0 i [Fld n] o' t'); [vm_compute; reflexivity|exact Hi|exact E].
  - exists U32. split; [|reflexivity].
    rewrite (locate_elem boot_params "edd_mbr_sig_buffer" 16 U32 0x290 i [] 0 U32 ltac:(vm_compute; reflexivity) Hi eq_refl).
    now rewrite N.add_0_r.
  - destruct (place_field _ _ _ _ _ P8 H) as (t' & E & Es). exists t'. split; [|exact Es].
    apply (locate_elem boot_params "eddbuf" 6 edd_info 0xd00 i [Fld n] o' t'); [vm_compute; reflexivity|exact Hi|exact E].
  - destruct (place_field _ _ _ _ _ P9 H) as (t' & E & Es). exists t'. split; [|exact Es].
    rewrite <- N.add_assoc.
    apply (locate_elem boot_params "eddbuf" 6 edd_info 0xd00 i [Fld "params"; Fld n] (8 + o') t'); [vm_compute; reflexivity|exact Hi|].
    apply (locate_app [Fld "params"] edd_info [Fld n] 8 edd_device_params); [vm_compute; reflexivity|exact E].
Qed.
Example C53_applies : zero_page_place [Fld "hdr"; Fld "cmd_line_ptr"] 0x228 4 /\ zero_page_place [Fld "e820_table"; Idx 127; Fld "type"] 0xccc 4 /\
  zero_page_place [Fld "screen_info"; Fld "lfb_base"] 0x18 4 /\
  zero_page_place [Fld "eddbuf"; Idx 5; Fld "params"; Fld "checksum"] 0xeeb 1.
Proof.
  split; [apply (zp_hdr "cmd_line_ptr" (0x228 - 0x1f1) 4); unfold listed; cbn; tauto|].
  split; [apply (zp_e820 127 "type" 16 4); [reflexivity|unfold listed; cbn; tauto]|].
  split; [apply (zp_part "screen_info" 0 abi_screen_info "lfb_base" 0x18 4); [cbn; tauto|unfold listed; cbn; tauto]|].
  apply (zp_edd_params 5 "checksum" 73 1); [reflexivity|unfold listed; cbn; tauto].
Qed.

(** Whatever the declarations: fields lie inside their structure, different fields never share a
    byte, and packed structures have no gaps. *)
Theorem C53_fields_inside : forall t path o t', locate t path = Some (o, t') -> o + size t' <= size t.
Proof. intros. now apply locate_bounds with path. Qed.
Theorem C53_fields_disjoint : forall t q1 q2 o1 t1 o2 t2,
  diverge q1 q2 -> locate t q1 = Some (o1, t1) -> locate t q2 = Some (o2, t2) -> o1 + size t1 <= o2 \/ o2 + size t2 <= o1.
Proof. intros until t2. intros D. now apply locate_apart. Qed.
Theorem C53_packed_no_gaps : forall fs x, NoDup (map fst fs) -> x < size (Struct true fs) ->
  exists n o t', locate (Struct true fs) [Fld n] = Some (o, t') /\ o <= x < o + size t'.
Proof.
  intros fs x Hn Hx. rewrite size_struct in Hx.
  assert (G : forall fs o, NoDup (map fst fs) -> o <= x -> x < fields_end true o fs ->
    exists n o1 t', In n (map fst fs) /\ find_field true o fs n = Some (o1, t') /\ o1 <= x < o1 + size t').
  { clear. induction fs as [|[n t] fs IH]; intros o Hn Ho Hx; cbn [fields_end map fst] in *; [lia|]. inversion Hn as [|? ? Hni Hn']; subst.
    change (place true o t) with o in *. destruct (N.lt_ge_cases x (o + size t)) as [Hlt|Hge].
    - exists n, o, t. split; [now left|]. cbn [find_field]. rewrite String.eqb_refl. split; [reflexivity|lia].
    - destruct (IH _ Hn' Hge Hx) as (n1 & o1 & t1 & Hin & Hf & Hb). exists n1, o1, t1. split; [now right|]. split; [|exact Hb].
      cbn [find_field]. destruct (String.eqb_spec n n1) as [->|]; [contradiction|]. exact Hf. }
  destruct (G fs 0 Hn ltac:(lia) Hx) as (n & o & t' & _ & Hf & Hb). exists n, o, t'. split; [|exact Hb]. cbn [locate]. rewrite Hf. now rewrite N.add_0_r.
Qed.
Example C53_packed_applies : match boot_params, setup_header with
  | Struct true f1, Struct true f2 => NoDup (map fst f1) /\ NoDup (map fst f2) | _, _ => False end.
Proof. split; repeat (constructor; [cbn; intuition congruence|]); constructor. Qed.

(** ** C54 *)
Lemma lenN_assign t asg : forall bs, lenN bs = size t -> lenN (assign_all t asg bs) = size t.
Proof.
  induction asg as [|[q v] asg IH]; intros bs H; [exact H|]. cbn. apply IH. now apply lenN_set.
Qed.
Lemma get_assign t path o t' asg : locate t path = Some (o, t') -> whole_fields path asg -> forall bs, lenN bs = size t ->
  get t path (assign_all t asg bs) = match last_value path asg with Some v => v mod 256 ^ size t' | None => get t path bs end.
Proof.
  intros E. induction asg as [|[q v] asg IH]; intros Hw bs Hl; [reflexivity|]. cbn [assign_all fold_left fst snd last_value].
  change (fold_left _ asg ?b) with (assign_all t asg b). rewrite IH; [|intros q' v' Hin; apply (Hw q' v'); now right|now apply lenN_set].
  destruct (last_value path asg); [reflexivity|]. destruct (list_eq_dec step_eq_dec q path) as [->|Hne].
  - apply (get_set_same _ _ _ _ _ _ Hl E).
  - destruct (Hw q v) as [?|D]; [now left|contradiction|]. now apply get_set_other.
Qed.
Lemma uint_at_slice bs n : forall o, uint_at bs o n = le_dec (slice bs o (N.of_nat n)).
Proof.
  induction n as [|n IH]; intros o; [rewrite slice_zero; reflexivity|]. cbn [uint_at]. replace (N.of_nat (S n)) with (1 + N.of_nat n) by lia.
  rewrite slice_split_any, le_dec_app, slice_one, IH. destruct (nth_error bs (N.to_nat o)) as [b|] eqn:E.
  - cbn [le_dec]. change (256 ^ lenN [b]) with 256. lia.
  - apply nth_error_None in E. rewrite !slice_past by (unfold lenN; lia). reflexivity.
Qed.
Lemma get_uint t path o t' bs : locate t path = Some (o, t') -> get t path bs = uint_at bs o (N.to_nat (size t')).
Proof. intros E. unfold get. rewrite E, uint_at_slice, N2Nat.id. reflexivity. Qed.
Lemma guest_uint_holds m a bs n : holds_at m a bs -> forall o, o + N.of_nat n <= lenN bs -> guest_uint m (a + o) n = uint_at bs o n.
Proof.
  intros H. induction n as [|n IH]; intros o Ho; [reflexivity|]. cbn [guest_uint uint_at].
  destruct (nth_error bs (N.to_nat o)) as [b|] eqn:E; [|apply nth_error_None in E; unfold lenN in Ho; lia].
  rewrite (H _ _ E). replace (a + o + 1) with (a + (o + 1)) by lia. rewrite IH by lia. reflexivity.
Qed.

(** What the guest reads from a structure of type [t] stored at [a]: for each field the value last
    assigned, cut to the field's width, or the initial value. *)
Definition guest_sees (t : ty) (path : list step) (o s : N) (bs : bytes) (asg : list (list step * N)) (m : gmem) (a : N) : Prop :=
  guest_uint m (a + o) (N.to_nat s) =
    match last_value path asg with Some v => v mod 256 ^ s | None => uint_at bs o (N.to_nat s) end.
Lemma guest_sees_held t path o t' bs asg m a : locate t path = Some (o, t') -> lenN bs = size t -> whole_fields path asg ->
  holds_at m a (assign_all t asg bs) -> guest_sees t path o (size t') bs asg m a.
Proof.
  intros E Hl Hw H. unfold guest_sees. pose proof (locate_bounds _ _ _ _ E) as Hb.
  rewrite (guest_uint_holds _ _ _ _ H) by (rewrite lenN_assign by assumption; lia). rewrite <- (get_uint _ _ _ _ _ E), (get_assign _ _ _ _ _ E Hw _ Hl).
  destruct (last_value path asg); [reflexivity|]. now apply get_uint.
Qed.

Theorem C54_zero_page : forall be p m m' path o s bs asg,
  zero_page_place path o s -> lenN bs = 4096 -> whole_fields path asg -> header p = assign_all boot_params asg bs ->
  wf_mem m = true -> linux_write_bootparams be p m = (m', Ok tt) ->
  guest_sees boot_params path o s bs asg m' (header_start p).
Proof.
  intros until asg. intros Hz Hl Hw Hh Hm H. destruct (C53_zero_page_places _ _ _ Hz) as (t' & E & <-).
  apply (guest_sees_held _ _ _ _ _ _ _ _ E Hl Hw). rewrite <- Hh. eapply C43_linux_write; [exact Hm|exact H|reflexivity].
Qed.
Theorem C54_start_info : forall be p m m' n o s bs asg,
  listed abi_start_info n o s -> lenN bs = 56 -> whole_fields [Fld n] asg -> header p = assign_all hvm_start_info asg bs ->
  wf_mem m = true -> pvh_write_bootparams be p m = (m', Ok tt) ->
  (forall a v, modules_start p = Some a -> modules p = Some v -> disjoint (header_start p, header p) (a, v)) ->
  guest_sees hvm_start_info [Fld n] o s bs asg m' (header_start p).
Proof.
  intros until asg. intros Hz Hl Hw Hh Hm H Hd. destruct C53_boot_layouts as (_ & _ & _ & HL & _).
  destruct (place_field _ _ _ _ _ HL Hz) as (t' & E & <-). apply (guest_sees_held _ _ _ _ _ _ _ _ E Hl Hw). rewrite <- Hh.
  destruct (C44_pvh_writes _ _ _ _ Hm H) as (Hov & _). unfold pvh_pieces in Hov. cbn [app] in Hov.
  rewrite Hh in *. eapply overlay_holds; [exact Hov|]. intros x t Ht.
  destruct (modules_start p) as [a|]; [|destruct Ht]. destruct (modules p) as [v|]; [|destruct Ht]. destruct Ht as [<-|[]]. apply (Hd a v eq_refl eq_refl).
Qed.
(** Entries of the PVH lists, wherever the guest holds them (see C52 for when it does). *)
Theorem C54_list_entries : forall t a m adr n o s bs asg,
  (t = hvm_memmap_table_entry /\ a = abi_memmap_entry) \/ (t = hvm_modlist_entry /\ a = abi_modlist_entry) ->
  listed a n o s -> lenN bs = fst a -> whole_fields [Fld n] asg -> holds_at m adr (assign_all t asg bs) ->
  guest_sees t [Fld n] o s bs asg m adr.
Proof.
  intros until asg. intros Ht Hz Hl Hw H. destruct C53_boot_layouts as (_ & _ & _ & _ & H5 & H6).
  assert (HL : has_layout t a) by (destruct Ht as [[-> ->]|[-> ->]]; assumption).
  destruct (place_field _ _ _ _ _ HL Hz) as (t' & E & <-). apply guest_sees_held; try assumption. destruct HL as (HL & _). congruence.
Qed.
(** Assigning one field changes no byte outside it. *)
Theorem C54_assign_changes_only_field : forall t path o t' v bs i,
  locate t path = Some (o, t') -> lenN bs = size t -> ~ (o <= i < o + size t') ->
  nth_error (set t path v bs) (N.to_nat i) = nth_error bs (N.to_nat i).
Proof.
  intros until i. intros E Hl Hi. unfold set. rewrite E. pose proof (locate_bounds _ _ _ _ E).
  rewrite nth_error_patch; rewrite lenN_le_enc, N2Nat.id; [|lia].
  destruct (N.leb_spec o i); [|reflexivity]. destruct (N.ltb_spec i (o + size t')); [lia|reflexivity].
Qed.

Definition ex_asg : list (list step * N) :=
  [ ([Fld "hdr"; Fld "type_of_loader"], 0xff); ([Fld "hdr"; Fld "cmd_line_ptr"], 0x20000); ([Fld "e820_entries"], 2);
    ([Fld "e820_table"; Idx 1; Fld "addr"], 0x100000); ([Fld "hdr"; Fld "cmd_line_ptr"], 0x123456789) ].
Example C54_applies : forall be,
  whole_fields [Fld "hdr"; Fld "cmd_line_ptr"] ex_asg /\ whole_fields [Fld "e820_table"; Idx 0; Fld "addr"] ex_asg /\
  exists m', linux_write_bootparams be (bp_new (assign_all boot_params ex_asg (default_of boot_params)) 0x7000) demo_mem = (m', Ok tt) /\
    guest_uint m' 0x7228 4 = 0x23456789 /\ guest_uint m' (0x7000 + 0x2d0 + 20) 8 = 0x100000.
Proof.
  intros be. split; [|split].
  1,2: (intros q v [H|[H|[H|[H|[H|[]]]]]]; inversion H; subst;
    try (left; reflexivity); right; repeat (first [apply div_fld; discriminate|apply div_idx; discriminate|apply div_step])).
  destruct be; (eexists; split; [vm_compute; reflexivity|vm_compute; split; reflexivity]).
Qed.

(** ** C55 *)
Lemma nth_set_hdr bp h i : lenN bp = 4096 -> lenN h = 123 ->
  nth_error (set_bytes boot_params [Fld "hdr"] h bp) (N.to_nat i) =
  if (0x1f1 <=? i) && (i <? 0x1f1 + 123) then nth_error h (N.to_nat (i - 0x1f1)) else nth_error bp (N.to_nat i).
Proof.
  intros Hb Hh. unfold set_bytes. change (locate boot_params [Fld "hdr"]) with (Some (497, setup_header)). cbv beta iota.
  change (size setup_header) with 123. rewrite <- Hh at 1. rewrite slice_full. rewrite nth_error_patch by lia. now rewrite Hh.
Qed.
Lemma len_set_hdr bp h : lenN bp = 4096 -> lenN h = 123 -> lenN (set_bytes boot_params [Fld "hdr"] h bp) = 4096.
Proof.
  intros Hb Hh. unfold set_bytes. change (locate boot_params [Fld "hdr"]) with (Some (497, setup_header)). cbv beta iota.
  change (size setup_header) with 123. rewrite <- Hh at 1. rewrite slice_full. rewrite lenN_patch; lia.
Qed.

(** The VMM loads a bzImage, copies the returned header into a zero page (whatever else is in
    there) and writes it at [z]; memory may have changed arbitrarily in between. *)
Theorem C55_header_bytes : forall be be' off highmem r m m' res h bp p m1 m2,
  bz_runs be off highmem r m m' (Ok res) -> ~ short_reads r -> result_header res = Some h ->
  lenN bp = 4096 -> header p = set_bytes boot_params [Fld "hdr"] h bp ->
  wf_mem m1 = true -> linux_write_bootparams be' p m1 = (m2, Ok tt) ->
  let z := header_start p in
  (forall i, i < 123 -> ~ (35 <= i < 39) -> Some (gm_byte m2 (z + 0x1f1 + i)) = nth_error (rd_data r) (N.to_nat (0x1f1 + i))) /\
  guest_uint m2 (z + 0x214) 4 = kernel_load res mod 2 ^ 32 /\
  (forall i, i < 4096 -> ~ (0x1f1 <= i < 0x1f1 + 123) -> Some (gm_byte m2 (z + i)) = nth_error bp (N.to_nat i)) /\
  same_outside m1 m2 (in_range z 4096).
Proof.
  intros until m2. intros Hbz Hq Eh Hbp Hp Hw H. cbv zeta. destruct (C36_bz_setup_header _ _ _ _ _ _ _ Hbz Hq) as (h' & Eh' & Hlen & Hbytes & H35 & _).
  rewrite Eh in Eh'. inversion Eh'; subst h'. clear Eh'.
  pose proof (C43_linux_write _ _ _ _ _ Hw H) as (Hok & _ & _ & _ & _ & _ & Hfr). destruct (Hok eq_refl) as (_ & Hold & _). clear Hok. rewrite Hp in Hold, Hfr.
  rewrite (len_set_hdr _ _ Hbp Hlen) in Hfr. set (v := set_bytes boot_params [Fld "hdr"] h bp) in *.
  assert (Hv : forall i b, nth_error v (N.to_nat i) = Some b -> Some (gm_byte m2 (header_start p + i)) = nth_error v (N.to_nat i)).
  { intros i b Hb. rewrite Hb. f_equal. now apply Hold. }
  assert (Hlt : forall i, i < 4096 -> exists b, nth_error v (N.to_nat i) = Some b).
  { intros i Hi. destruct (nth_error v (N.to_nat i)) eqn:E; [eauto|]. apply nth_error_None in E. pose proof (len_set_hdr _ _ Hbp Hlen) as L. fold v in L. unfold lenN in L. lia. }
  split; [|split; [|split]].
  - intros i Hi Hi2. rewrite <- Hbytes by lia. replace (header_start p + 497 + i) with (header_start p + (497 + i)) by lia.
    destruct (Hlt (497 + i) ltac:(lia)) as [b Eb]. rewrite (Hv _ _ Eb). unfold v. rewrite nth_set_hdr by assumption.
    rewrite (proj2 (N.leb_le _ _)) by lia. rewrite (proj2 (N.ltb_lt _ _)) by lia. cbn [andb]. f_equal. lia.
  - rewrite (guest_uint_holds _ _ _ _ Hold) by (fold v; unfold v; rewrite (len_set_hdr _ _ Hbp Hlen); cbn; lia).
    rewrite uint_at_slice. rewrite <- H35, <- le_dec_slice4. f_equal. apply slice_ext. intros i Hi.
    unfold v. rewrite nth_set_hdr by assumption. rewrite (proj2 (N.leb_le _ _)) by lia. rewrite (proj2 (N.ltb_lt _ _)) by lia. cbn [andb]. f_equal. lia.
  - intros i Hi Hi2. destruct (Hlt i Hi) as [b Eb]. rewrite (Hv _ _ Eb). unfold v. rewrite nth_set_hdr by assumption.
    destruct (N.leb_spec 497 i); [|reflexivity]. destruct (N.ltb_spec i (497 + 123)); [lia|reflexivity].
  - exact Hfr.
Qed.

(** ... and may then set further fields (loader type, command line pointer, e820 map...): header
    fields it does not set still carry the file's value, and the kernel is still in place if the
    zero page does not overlap it. *)
Theorem C55_boot : forall be off highmem r m m' res h bp asg z p m2,
  bz_runs be off highmem r m m' (Ok res) -> ~ short_reads r -> result_header res = Some h ->
  lenN bp = 4096 -> p = bp_new (assign_all boot_params asg (set_bytes boot_params [Fld "hdr"] h bp)) z ->
  linux_write_bootparams be p m' = (m2, Ok tt) ->
  (forall n o s, listed abi_setup_header n o s -> n <> "code32_start"%string -> whole_fields [Fld "hdr"; Fld n] asg ->
     last_value [Fld "hdr"; Fld n] asg = None ->
     guest_uint m2 (z + 0x1f1 + o) (N.to_nat s) = uint_at (rd_data r) (0x1f1 + o) (N.to_nat s)) /\
  (forall path o s v, zero_page_place path o s -> whole_fields path asg -> last_value path asg = Some v -> guest_uint m2 (z + o) (N.to_nat s) = v mod 256 ^ s) /\
  (disjoint (kernel_load res, bz_payload (rd_data r)) (z, header p) -> holds_at m2 (kernel_load res) (bz_payload (rd_data r))).
Proof.
  intros until m2. intros Hbz Hq Eh Hbp Hp H. destruct (C36_bz_setup_header _ _ _ _ _ _ _ Hbz Hq) as (h' & Eh' & Hlen & Hbytes & H35 & _).
  rewrite Eh in Eh'. inversion Eh'; subst h'. clear Eh'. destruct (C35_bz_payload_placed _ _ _ _ _ _ _ Hbz) as (_ & Hov & _).
  assert (Hw : wf_mem m' = true). { rewrite (wf_mem_regions m m' (proj1 Hov)). apply Hbz. }
  assert (Hp1 : header p = assign_all boot_params asg (set_bytes boot_params [Fld "hdr"] h bp)) by now subst p.
  assert (Hp2 : header_start p = z) by now subst p. pose proof (len_set_hdr _ _ Hbp Hlen) as Lv. split; [|split].
  - intros n o s Hn Hne Hwf Hlast. assert (Hz : zero_page_place [Fld "hdr"; Fld n] (0x1f1 + o) s) by now apply zp_hdr.
    pose proof (C54_zero_page _ _ _ _ _ _ _ _ _ Hz Lv Hwf Hp1 Hw H) as G. unfold guest_sees in G. rewrite Hlast, Hp2 in G.
    replace (z + 497 + o) with (z + (497 + o)) by lia. rewrite G, !uint_at_slice. f_equal. apply slice_ext. intros i Hi. rewrite N2Nat.id in Hi.
    assert (Hb : o + s <= 123 /\ (o + s <= 35 \/ 39 <= o)).
    { destruct C53_boot_layouts as (_ & HL & _). destruct (place_field _ _ _ _ _ HL Hn) as (t' & E & <-). pose proof (locate_bounds _ _ _ _ E) as B.
      split; [exact B|]. assert (D : diverge [Fld n] [Fld "code32_start"]) by now apply div_fld.
      destruct (locate_apart _ _ D setup_header o t' 35 U32 E ltac:(vm_compute; reflexivity)) as [C|C]; [left; lia|right; exact C]. }
    rewrite nth_set_hdr by assumption. rewrite (proj2 (N.leb_le _ _)) by lia. rewrite (proj2 (N.ltb_lt _ _)) by lia. cbn [andb].
    replace (497 + o + i - 497) with (o + i) by lia. rewrite Hbytes by lia. f_equal. lia.
  - intros path o s v Hz Hwf Hlast. pose proof (C54_zero_page _ _ _ _ _ _ _ _ _ Hz Lv Hwf Hp1 Hw H) as G. unfold guest_sees in G. now rewrite Hlast, Hp2 in G.
  - intros Hd i b Hb. pose proof (C43_linux_write _ _ _ _ _ Hw H) as (_ & _ & _ & _ & _ & _ & (_ & Hfr)). rewrite Hp2 in Hfr. rewrite Hfr.
    + now apply (overlay_one m m' _ _ Hov).
    + apply (Hd (kernel_load res + i)). cbn [fst snd]. split; [lia|]. apply nth_error_lenN in Hb. lia.
Qed.

Definition c55_params (h : bytes) : boot_info :=
  bp_new (assign_all boot_params ex_asg (set_bytes boot_params [Fld "hdr"] h (default_of boot_params))) 0x7000.
Example C55_applies : forall be, exists m' res h m2,
  bz_runs be (Some 0x4000) None (plain_reader demo_bz) demo_mem m' (Ok res) /\ ~ short_reads (plain_reader demo_bz) /\
  result_header res = Some h /\ linux_write_bootparams be (c55_params h) m' = (m2, Ok tt) /\
  guest_uint m2 0x7202 4 = 0x53726448 /\ guest_uint m2 0x7214 4 = 0x4000 /\ guest_uint m2 0x7228 4 = 0x23456789.
Proof.
  intros be. do 4 eexists. split.
  { split; [apply plain_wf; reflexivity|]. split; [vm_compute; discriminate|]. split; [reflexivity|]. split; [intros a E; inversion E; reflexivity|].
    destruct be; eexists; vm_compute; reflexivity. }
  split; [intros X; refine (quiet_plain demo_bz _ (or_intror X)); reflexivity|]. split; [reflexivity|]. split; [destruct be; vm_compute; reflexivity|]. destruct be; vm_compute; auto.
Qed.
