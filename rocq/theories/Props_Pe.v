(** * Props_Pe: the arm64 / riscv64 Image loader and load_dtb, properties C39-C42.

    Vocabulary: SpecPe.v, SpecBz.v ([dest_ok]), SpecFile.v, SpecMem.v. *)
From Verif Require Import Base Base_proofs Io Mem SpecMem Mem_proofs Layout Loader Pe SpecFile SpecBz SpecPe
  File_proofs Elf_proofs Elf_proofs2 Bz_proofs Pe_proofs Demo_elf.

Definition pe_runs a be off highmem r m m' o : Prop :=
  wf_reader r /\ wf_mem m = true /\ exists r', pe_load a be off highmem r m = (r', m', o).
Definition dtb_runs be addr r m m' o : Prop :=
  wf_reader r /\ wf_mem m = true /\ exists r', load_dtb be addr r m = (r', m', o).

Ltac use_pe H :=
  let Hwr := fresh "Hwr" in let Hwm := fresh "Hwm" in let r' := fresh "r'" in let E := fresh "Erun" in
  destruct H as (Hwr & Hwm & r' & E); pose proof (pe_load_spec _ _ _ _ _ _ _ _ _ Hwr Hwm E) as (Henv & Hpost).
Ltac pe_cases Hpost :=
  destruct Hpost as [(e0 & Hpr & Ho & Hm)|[(Htr & e0 & Ho & Hm)|[(Hg & Hnb & Ho & Hso)|(Hg & Hb & Hov & Ho)]]].
Ltac use_dtb H :=
  let Hwr := fresh "Hwr" in let Hwm := fresh "Hwm" in let r' := fresh "r'" in let E := fresh "Erun" in
  destruct H as (Hwr & Hwm & r' & E); pose proof (load_dtb_spec _ _ _ _ _ _ _ Hwr Hwm E) as (Henv & Hpost).
Ltac dtb_cases Hpost :=
  destruct Hpost as [(Hbig & Ho & Hm)|[(Htr & e0 & Ho & Hm)|[(Hsm & Hnb & Ho & Hso)|(Hsm & Hb & Hov & Ho)]]].

Lemma pe_problem_not_good a f off e : pe_problem a f off e -> ~ pe_good a f off.
Proof. intros H (G1 & G2 & G3 & G4). destruct H; try contradiction; lia. Qed.
Lemma pe_problem_det a f off e e' : pe_problem a f off e -> pe_problem a f off e' -> e = e'.
Proof. intros H H'. destruct H, H'; try reflexivity; try contradiction; lia. Qed.
Lemma pe_good_or_problem a f off : pe_good a f off \/ exists e, pe_problem a f off e.
Proof.
  destruct (N.lt_ge_cases (lenN f) 64) as [H|H]; [right; eexists; now apply pp_short|].
  assert (D : pe_magic_good a f \/ ~ pe_magic_good a f).
  { unfold pe_magic_good. destruct (N.eq_dec (u32at f 0x38) (match a with Aarch64 => 0x644d5241 | Riscv64 => 0x05435352 end)); auto. }
  destruct D as [D|D]; [|right; eexists; now apply pp_magic].
  destruct (N.eq_dec (pe_base off mod (2 * 1024 * 1024)) 0) as [E|E]; [|right; eexists; now apply pp_align].
  destruct (N.lt_ge_cases (pe_load_addr a f off) (2 ^ 64)) as [L|L]; [|right; eexists; now apply pp_over].
  left. unfold pe_good. auto.
Qed.

(** ** Demonstration images. *)
Definition demo_pe (a : arch) (text imgsize : N) : bytes :=
  zeros 8 ++ le_enc 8 text ++ le_enc 8 imgsize ++ zeros 32 ++
  le_enc 4 (match a with Aarch64 => 0x644d5241 | Riscv64 => 0x05435352 end) ++ zeros 4 ++ [x11; x12; x13].
Definition pe_mem : gmem := mkMem [mkRegion 0x200000 0x1000; mkRegion 0x280000 0x1000] (fun _ => xff).

Example demo_pe_runs : forall a be, exists m',
  pe_runs a be (Some 0x200000) None (plain_reader (demo_pe a 0x80 4096)) pe_mem m' (Ok (mkResult 0x200080 0x2000c3 None PvhEntryIgnored)) /\
  peek m' 0x2000bf 6 = [x00; x11; x12; x13; xff; xff].
Proof.
  intros a be. destruct a, be; (eexists; split; [split; [apply plain_wf; reflexivity|split; [reflexivity|eexists; vm_compute; reflexivity]]|vm_compute; reflexivity]).
Qed.
Example demo_pe_legacy : exists m',
  pe_runs Aarch64 TryAccess (Some 0x200000) None (slow_reader (demo_pe Aarch64 0x80 0)) pe_mem m' (Ok (mkResult 0x280000 0x280043 None PvhEntryIgnored)).
Proof.
  eexists. split; [apply slow_wf; reflexivity|split; [reflexivity|eexists; vm_compute; reflexivity]].
Qed.

(** ** C39: the whole file is placed where the header and offset say; for every source. *)
Theorem C39_pe_placement : forall a be off highmem r m m' res,
  pe_runs a be off highmem r m m' (Ok res) ->
  let f := rd_data r in
  kernel_load res = match off with Some k => k | None => 0 end + pe_text_offset a f /\
  kernel_end res = kernel_load res + lenN f /\ kernel_end res < 2 ^ 64 /\
  result_header res = None /\ pvh_boot_cap res = PvhEntryIgnored /\
  mem_is_overlay m m' [(kernel_load res, f)].
Proof.
  intros until res. intros H. use_pe H. pe_cases Hpost; try discriminate. inversion Ho; subst res. cbn.
  split; [reflexivity|]. split; [reflexivity|]. split.
  - apply (range_backed_bound m); [exact Hwm| |exact Hb]. destruct Hg as (Hg & _). lia.
  - auto.
Qed.
Theorem C39_pe_readable : forall a be off highmem r m m' res,
  pe_runs a be off highmem r m m' (Ok res) ->
  forall i b, nth_error (rd_data r) (N.to_nat i) = Some b -> gm_byte m' (kernel_load res + i) = b.
Proof.
  intros until res. intros H i b Hb. apply C39_pe_placement in H as (_ & _ & _ & _ & _ & _ & Hov). rewrite Hov.
  unfold overlay. cbn [fold_left fst snd]. now apply put_in.
Qed.
Example C39_applies : forall a be, exists m' res,
  pe_runs a be (Some 0x200000) None (plain_reader (demo_pe a 0x80 4096)) pe_mem m' (Ok res) /\ kernel_load res = 0x200080 /\
  nth_error (demo_pe a 0x80 4096) (N.to_nat 66) = Some x13.
Proof. intros a be. destruct (demo_pe_runs a be) as (m' & H & _). exists m'. eexists. split; [exact H|]. split; [reflexivity|]. destruct a; reflexivity. Qed.

(** ** C40: rejected images: the first problem is reported and memory is untouched. *)
Theorem C40_pe_rejects : forall a be off highmem r m m' o e,
  pe_runs a be off highmem r m m' o -> pe_problem a (rd_data r) off e ->
  m' = m /\ (exists e', o = Err (LPe e')) /\ (~ io_trouble be r -> o = Err (LPe e)).
Proof.
  intros until e. intros H Hp. use_pe H. pose proof (pe_problem_not_good _ _ _ _ Hp) as Hn. pe_cases Hpost; try contradiction.
  - split; [exact Hm|]. split; [eauto|]. intros _. rewrite Ho. do 2 f_equal. eapply pe_problem_det; eassumption.
  - split; [destruct Hm as [Hm|[Hm _]]; [exact Hm|contradiction]|]. split; [eauto|]. intros Hq. contradiction.
Qed.
(** Every error leaves everything outside the destination unchanged; nothing panics. *)
Theorem C40_pe_errors_frame : forall a be off highmem r m m' o,
  pe_runs a be off highmem r m m' o ->
  (forall p, o <> Panic p) /\
  (forall e, o = Err e -> m' = m \/ same_outside m m' (in_range (pe_load_addr a (rd_data r) off) (lenN (rd_data r)))).
Proof.
  intros until o. intros H. use_pe H. pe_cases Hpost; subst o; (split; [discriminate|]).
  - auto.
  - intros _ _. destruct Hm as [Hm|[_ Hm]]; auto.
  - auto.
  - discriminate.
Qed.
Example C40_cases : forall a,
  pe_problem a (zeros 63) None ReadImageHeader /\ pe_problem a (zeros 64) None InvalidImageMagicNumber /\
  pe_problem a (demo_pe a 0 1) (Some 0x100000) InvalidBaseAddrAlignment /\
  pe_problem a (demo_pe a 0x200000 1) (Some (2 ^ 64 - 0x200000)) InvalidImage.
Proof.
  intros []; (split; [now apply pp_short|split; [apply pp_magic; vm_compute; discriminate|
    split; [apply pp_align; vm_compute; discriminate || reflexivity|apply pp_over; vm_compute; discriminate || reflexivity]]]).
Qed.

(** ** C41: an undisturbed load succeeds exactly for good images whose destination is backed. *)
Theorem C41_pe_accepts_iff : forall a be off highmem r m m' o,
  pe_runs a be off highmem r m m' o -> ~ io_trouble be r ->
  let f := rd_data r in
  ((exists res, o = Ok res) <->
   64 <= lenN f /\ pe_magic_good a f /\ match off with Some k => k mod 0x200000 = 0 | None => True end /\
   range_backed m (match off with Some k => k | None => 0 end + pe_text_offset a f) (lenN f)).
Proof.
  intros until o. intros H Hq. cbv zeta. use_pe H.
  assert (Eal : match off with Some k => k mod 0x200000 = 0 | None => True end <-> pe_base off mod (2 * 1024 * 1024) = 0).
  { destruct off; cbn; [reflexivity|]. split; reflexivity || auto. }
  rewrite Eal. fold (pe_base off). fold (pe_load_addr a (rd_data r) off).
  pe_cases Hpost; try contradiction.
  - split; [intros (? & ?); congruence|]. intros (G1 & G2 & G3 & G4). exfalso. apply (pe_problem_not_good _ _ _ _ Hpr).
    unfold pe_good. split; [assumption|]. split; [assumption|]. split; [assumption|].
    pose proof (range_backed_bound m _ (lenN (rd_data r)) Hwm ltac:(lia) G4) as G. change (2 ^ 64) with two64. lia.
  - split; [intros (? & ?); congruence|]. intros (_ & _ & _ & ?). contradiction.
  - split; [|eauto]. intros _. destruct Hg as (? & ? & ? & ?). auto.
Qed.

(** Otherwise a good image without a backed destination is reported as an unreadable kernel. *)
Theorem C41_pe_unbacked : forall a be off highmem r m m' o,
  pe_runs a be off highmem r m m' o -> ~ io_trouble be r -> pe_good a (rd_data r) off ->
  ~ range_backed m (pe_load_addr a (rd_data r) off) (lenN (rd_data r)) ->
  o = Err (LPe PeReadKernelImage).
Proof.
  intros until o. intros H Hq Hg' Hnb'. use_pe H. pe_cases Hpost; try contradiction; [|exact Ho].
  exfalso. eapply pe_problem_not_good; eassumption.
Qed.
Example C41_unbacked_applies : forall be, exists m',
  pe_runs Aarch64 be (Some 0x400000) None (plain_reader (demo_pe Aarch64 0x80 4096)) pe_mem m' (Err (LPe PeReadKernelImage)) /\
  pe_good Aarch64 (demo_pe Aarch64 0x80 4096) (Some 0x400000).
Proof.
  intros be. destruct be; (eexists; split; [split; [apply plain_wf; reflexivity|split; [reflexivity|eexists; vm_compute; reflexivity]]|]);
    unfold pe_good, pe_magic_good; vm_compute; repeat split; discriminate.
Qed.

(** The complete list of errors: never an overflow error from the end address. *)
Theorem C40_pe_error_list : forall a be off highmem r m m' e,
  pe_runs a be off highmem r m m' (Err e) ->
  In e [LPe SeekImageEnd; LPe SeekImageHeader; LPe ReadImageHeader; LPe InvalidImageMagicNumber;
        LPe InvalidBaseAddrAlignment; LPe InvalidImage; LPe PeReadKernelImage].
Proof.
  intros until e. intros H. assert (Hpe : exists e', e = LPe e').
  { use_pe H. pe_cases Hpost; try discriminate; injection Ho as ->; eauto. }
  destruct Hpe as [e' ->]. destruct H as (_ & _ & r' & H). cbn [In]. unfold pe_load in H.
  rewrite lbind_lio in H. destruct (seek_end r) as [r1 [n|]]; [|injection H; intros <- _ _; auto 10].
  rewrite lbind_lio in H. destruct (seek_start r1 0) as [r2 [x|]]; [|injection H; intros <- _ _; auto 10].
  rewrite lbind_lio in H. destruct (read_exact r2 _) as [r3 [h|]]; [|injection H; intros <- _ _; auto 10].
  destruct (negb _); [injection H; intros <- _ _; auto 10|].
  destruct (match off with Some _ => _ | None => false end); [injection H; intros <- _ _; auto 10|].
  destruct (checked_add _ _) as [t|]; cbn [ok_or] in H; [rewrite lbind_ok in H|rewrite lbind_err in H; injection H; intros <- _ _; auto 10].
  rewrite lbind_lio in H. destruct (seek_start r3 0) as [r4 [y|]]; [|injection H; intros <- _ _; auto 10].
  unfold lbind at 1 in H. unfold lcopy in H. destruct (read_exact_volatile_from _ _ _ _ _) as [[r5 m5] [[]|[]|p]].
  - destruct (checked_add _ _) as [z|]; cbn [ok_or] in H; [rewrite lbind_ok in H|rewrite lbind_err in H]; discriminate.
  - injection H; intros <- _ _; auto 10.
  - discriminate.
Qed.

(** ** C42: load_dtb. *)
Theorem C42_dtb_unbacked : forall be addr r m m' o,
  dtb_runs be addr r m m' o -> ~ io_trouble be r -> lenN (rd_data r) <= 2 * 1024 * 1024 ->
  ~ dest_ok be m addr (lenN (rd_data r)) -> o = Err (LPe ReadDtbImage).
Proof.
  intros until o. intros H Hq Hs Hnb'. use_dtb H. dtb_cases Hpost; try contradiction; [lia|exact Ho].
Qed.
Theorem C42_dtb_error_list : forall be addr r m m' e,
  dtb_runs be addr r m m' (Err e) ->
  In e [LPe SeekDtbEnd; LPe DtbTooBig; LPe SeekDtbStart; LPe ReadDtbImage].
Proof.
  intros until e. intros (_ & _ & r' & H). cbn [In]. unfold load_dtb in H.
  rewrite lbind_lio in H. destruct (seek_end r) as [r1 [n|]]; [|injection H; intros <- _ _; auto 10].
  destruct (_ <? n); [injection H; intros <- _ _; auto 10|].
  rewrite lbind_lio in H. destruct (seek_start r1 0) as [r2 [x|]]; [|injection H; intros <- _ _; auto 10].
  unfold lcopy in H. destruct (read_exact_volatile_from _ _ _ _ _) as [[r5 m5] [[]|[]|p]]; try discriminate.
  injection H; intros <- _ _; auto 10.
Qed.
Example C42_unbacked_applies : exists m', dtb_runs GetSlices 0x201fff (plain_reader [x01; x02]) pe_mem m' (Err (LPe ReadDtbImage)).
Proof. eexists. split; [apply plain_wf; reflexivity|split; [reflexivity|eexists; vm_compute; reflexivity]]. Qed.
Theorem C42_dtb_ok : forall be addr r m m',
  dtb_runs be addr r m m' (Ok tt) ->
  lenN (rd_data r) <= 2 * 1024 * 1024 /\ mem_is_overlay m m' [(addr, rd_data r)] /\
  range_backed m addr (lenN (rd_data r)) /\
  (forall i b, nth_error (rd_data r) (N.to_nat i) = Some b -> gm_byte m' (addr + i) = b).
Proof.
  intros until m'. intros H. use_dtb H. dtb_cases Hpost; try discriminate. split; [exact Hsm|]. split; [exact Hov|]. split; [apply Hb|].
  intros i b Hi. destruct Hov as [_ Hov]. rewrite Hov. unfold overlay. cbn [fold_left fst snd]. now apply put_in.
Qed.
Theorem C42_dtb_too_big : forall be addr r m m' o,
  dtb_runs be addr r m m' o -> 2 * 1024 * 1024 < lenN (rd_data r) ->
  m' = m /\ o <> Ok tt /\ (~ io_trouble be r -> o = Err (LPe DtbTooBig)).
Proof.
  intros until o. intros H Hbig'. use_dtb H. dtb_cases Hpost; try lia.
  - subst o. split; [exact Hm|]. split; [discriminate|auto].
  - split; [destruct Hm as [Hm|[Hm _]]; [exact Hm|lia]|]. subst o. split; [discriminate|contradiction].
Qed.
(** Completeness and frame. *)
Theorem C42_dtb_accepts_iff : forall be addr r m m' o,
  dtb_runs be addr r m m' o -> ~ io_trouble be r ->
  (o = Ok tt <-> lenN (rd_data r) <= 2 * 1024 * 1024 /\ dest_ok be m addr (lenN (rd_data r))).
Proof.
  intros until o. intros H Hq. use_dtb H. dtb_cases Hpost; try contradiction; subst o.
  - split; [discriminate|lia].
  - split; [discriminate|]. intros [_ ?]. contradiction.
  - split; auto.
Qed.
Theorem C42_dtb_frame : forall be addr r m m' o,
  dtb_runs be addr r m m' o ->
  same_outside m m' (in_range addr (lenN (rd_data r))) /\ (forall p, o <> Panic p).
Proof.
  intros until o. intros H. use_dtb H. dtb_cases Hpost; subst o; (split; [|discriminate]).
  - subst m'. apply same_outside_refl.
  - destruct Hm as [-> |[_ Hm]]; [apply same_outside_refl|exact Hm].
  - exact Hso.
  - destruct Hov as [H1 H2]. split; [exact H1|]. intros x Hx. rewrite H2. unfold overlay. cbn [fold_left fst snd]. now apply put_out.
Qed.
Example C42_applies : exists m', dtb_runs GetSlices 0x200ffe (plain_reader [x01; x02]) pe_mem m' (Ok tt) /\ peek m' 0x200ffd 3 = [xff; x01; x02].
Proof. eexists. split; [split; [apply plain_wf; reflexivity|split; [reflexivity|eexists; vm_compute; reflexivity]]|vm_compute; reflexivity]. Qed.
Example C42_applies_slow : exists m', dtb_runs TryAccess 0x200000 (slow_reader (repeat xaa 10)) pe_mem m' (Ok tt) /\ peek m' 0x200009 2 = [xaa; xff].
Proof. eexists. split; [split; [apply slow_wf; reflexivity|split; [reflexivity|eexists; vm_compute; reflexivity]]|vm_compute; reflexivity]. Qed.
Example C42_too_big_applies : forall be, exists m', dtb_runs be 0x200000 (plain_reader (zeros 0x200001)) pe_mem m' (Err (LPe DtbTooBig)).
Proof.
  intros be. destruct (load_dtb be 0x200000 (plain_reader (zeros 0x200001)) pe_mem) as [[r' m'] o] eqn:E.
  assert (Hl : lenN (zeros 0x200001) = 0x200001) by apply lenN_zeros.
  assert (Hr : dtb_runs be 0x200000 (plain_reader (zeros 0x200001)) pe_mem m' o).
  { split; [apply plain_wf; rewrite Hl; reflexivity|]. split; [reflexivity|eauto]. }
  exists m'. destruct (C42_dtb_too_big _ _ _ _ _ _ Hr) as (_ & _ & Ho).
  - change (rd_data (plain_reader (zeros 0x200001))) with (zeros 0x200001). rewrite Hl. reflexivity.
  - rewrite <- Ho; [exact Hr|]. apply plain_quiet. rewrite Hl. reflexivity.
Qed.
