(** * Props_Elf: the ELF loader, properties C20-C33.

    Vocabulary: SpecElf.v, SpecFile.v, SpecMem.v.  Throughout, [elf_load bld be off highmem r m =
    (r', m', o)]: loading from source [r] into guest memory [m], with optional kernel offset and high
    memory start, ends with outcome [o], the source left as [r'], memory left as [m'].  [bld]: build
    profile; [be]: which of the two region-walking strategies of vm-memory.  [rd_data r] is the
    image file. *)
From Verif Require Import Base Base_proofs Io Mem SpecMem Mem_proofs Layout Loader Elf SpecFile SpecElf
  File_proofs Align_proofs Elf_proofs Elf_proofs2 Note_proofs Demo_elf.

Definition runs bld be off highmem r m m' o : Prop :=
  wf_reader r /\ wf_mem m = true /\ exists r', elf_load bld be off highmem r m = (r', m', o).

Ltac use_spec H :=
  let Hwr := fresh "Hwr" in let Hwm := fresh "Hwm" in let r' := fresh "r'" in let E := fresh "Erun" in
  destruct H as (Hwr & Hwm & r' & E); pose proof (elf_load_spec _ _ _ _ _ _ _ _ _ Hwr Hwm E) as H;
  destruct H as (Henv & Hreg & Hun & Hearly & Hpost).

Lemma elf_post_short be off highmem r m m' o : elf_post be off highmem r m m' o ->
  let f := rd_data r in
  let mp := rd_maxpos r in
  (exists c, o = Ok (mkResult (base_of off + entry_of f) (max_end off (phdrs_of f)) None c) /\
     start_good f mp off highmem /\ Forall (ph_fine f mp m off) (phdrs_of f) /\
     mem_is_overlay m m' (segs_of f off (phdrs_of f)) /\ caps f mp off (phdrs_of f) c) \/
  (exists e, o = Err (LElf e) /\ start_problem f mp off highmem e /\ m' = m) \/
  (exists pre p post e, phdrs_of f = pre ++ p :: post /\ o = Err e /\ start_good f mp off highmem /\
     Forall (ph_fine f mp m off) pre /\ ph_error f mp m off p e /\
     (forall x, ~ seg_dest off p x -> gm_byte m' x = overlay (gm_byte m) (segs_of f off pre) x)) \/
  (io_trouble be r /\ exists e, o = Err e).
Proof.
  intros [H|[H|[H|[(e & -> & H & _)|(? & ? & ? & e & _ & -> & _ & _ & H & _)]]]]; cbv zeta; auto.
  - right; right; right. split; [exact (start_trouble_io _ _ _ _ _ H)|eauto].
  - right; right; right. split; [exact (ph_trouble_io _ _ _ _ _ H)|eauto].
Qed.

Ltac post_cases Hpost :=
  apply elf_post_short in Hpost; cbv zeta in Hpost;
  destruct Hpost as [(c & Ho & Hsg & Hfine & Hov & Hcap)|[(e0 & Ho & Hsp & Hm)|[(pre1 & p1 & post1 & e0 & Hps1 & Ho & Hsg & Hfine & Hpe & Hov)|(Htr & e0 & Ho)]]].

(** The demonstration run: all theorems below apply to it. *)
Example demo_runs : forall bld be, exists m',
  runs bld be None (Some 0x1000000) (plain_reader demo_elf) demo_mem m'
    (Ok (mkResult 0x1000100 0x1000020 None (PvhEntryPresent 0x1000040))) /\
  peek m' 0xfffffe 14 = [xff; xff; x11; x12; x13; x14; x21; x22; x23; x24; xff; xff; xff; xff].
Proof.
  intros bld be. destruct bld, be; eexists; (split; [split; [apply plain_wf; reflexivity|split; [reflexivity|]];
    eexists; vm_compute; reflexivity|vm_compute; reflexivity]).
Qed.
Example demo_runs_slow : exists m',
  runs true TryAccess (Some 0x3000) None (slow_reader demo_elf) (mkMem [mkRegion 0 0x1003004; mkRegion 0x1003004 0x1000] (fun _ => xff)) m'
    (Ok (mkResult 0x1003100 0x1003020 None PvhEntryIgnored)) /\
  peek m' 0x1003000 9 = [x11; x12; x13; x14; x21; x22; x23; x24; xff].
Proof.
  eexists. split; [split; [apply slow_wf; reflexivity|split; [reflexivity|]];
    eexists; vm_compute; reflexivity|vm_compute; reflexivity].
Qed.

(** ** C20: every loadable segment is placed, later headers on top, and nothing else is written. *)
Theorem C20_elf_segments_placed : forall bld be off highmem r m m' res,
  runs bld be off highmem r m m' (Ok res) ->
  mem_is_overlay m m' (segs_of (rd_data r) off (phdrs_of (rd_data r))).
Proof. intros until res. intros H. use_spec H. post_cases Hpost; try discriminate. exact Hov. Qed.

(** In particular each segment can be read back wherever no later segment overlaps it. *)
Theorem C20_elf_segment_readable : forall bld be off highmem r m m' res pre p post,
  runs bld be off highmem r m m' (Ok res) ->
  phdrs_of (rd_data r) = pre ++ p :: post -> is_load p = true ->
  forall i, i < ph_filesz p ->
  (forall q, In q post -> ~ seg_dest off q (base_of off + ph_paddr p + i)) ->
  nth_error (rd_data r) (N.to_nat (ph_offset p + i)) = Some (gm_byte m' (base_of off + ph_paddr p + i)).
Proof.
  intros until post. intros H Hps Hl i Hi Hq. use_spec H. post_cases Hpost; try discriminate.
  destruct Hov as [_ Hov]. rewrite Hov, Hps. unfold segs_of, loaded.
  rewrite filter_app. cbn [filter]. rewrite Hl. rewrite map_app. cbn [map]. rewrite overlay_app.
  change (overlay ?g (seg_of (rd_data r) off p :: ?l)) with (overlay (put g (fst (seg_of (rd_data r) off p)) (snd (seg_of (rd_data r) off p))) l).
  assert (Hin : ph_offset p + ph_filesz p <= lenN (rd_data r)).
  { rewrite Hps in Hfine. apply Forall_app in Hfine as [_ Hfine]. inversion Hfine as [|? ? Hf _]; subst.
    destruct Hf; try congruence; assumption. }
  rewrite overlay_out.
  - unfold seg_of. cbn [fst snd]. rewrite part_slice.
    destruct (nth_error (rd_data r) (N.to_nat (ph_offset p + i))) as [b|] eqn:En.
    + symmetry. f_equal. apply put_in. rewrite nth_error_slice by assumption. exact En.
    + apply nth_error_None in En. unfold lenN in Hin. lia.
  - intros a bs Ha Hr. apply in_map_iff in Ha as (q & Eq & Hinq). apply filter_In in Hinq as [Hinq Hlq].
    apply (Hq q Hinq). split; [exact Hlq|]. unfold seg_of in Eq. inversion Eq; subst. destruct Hr as [Hr1 Hr2].
    split; [exact Hr1|]. eapply N.lt_le_trans; [exact Hr2|]. rewrite part_slice, lenN_slice. lia.
Qed.
Example C20_applies : forall bld be, exists m' res,
  runs bld be None None (plain_reader demo_elf) demo_mem m' (Ok res) /\
  phdrs_of demo_elf = [ph_at demo_elf 0] ++ ph_at demo_elf 1 :: [ph_at demo_elf 2; ph_at demo_elf 3] /\
  is_load (ph_at demo_elf 1) = true /\ 1 < ph_filesz (ph_at demo_elf 1) /\ base_of None + ph_paddr (ph_at demo_elf 1) + 1 = 0x1000005 /\
  forall q, In q [ph_at demo_elf 2; ph_at demo_elf 3] -> ~ seg_dest None q 0x1000005.
Proof.
  intros bld be. destruct bld, be; eexists _, _; (split; [split; [apply plain_wf; reflexivity|split; [reflexivity|eexists; vm_compute; reflexivity]]|]);
    (split; [vm_compute; reflexivity|]); (split; [reflexivity|]); (split; [reflexivity|]); (split; [reflexivity|]);
    intros q [<-|[<-|[]]] (H1 & H2 & H3); vm_compute in H1, H3; discriminate.
Qed.

(** ** C21: reported addresses. *)
Theorem C21_elf_addresses : forall bld be off highmem r m m' res,
  runs bld be off highmem r m m' (Ok res) ->
  kernel_load res = base_of off + entry_of (rd_data r) /\ kernel_load res < 2 ^ 64 /\
  result_header res = None /\ kernel_end res < 2 ^ 64 /\
  (forall p, In p (phdrs_of (rd_data r)) -> is_load p = true ->
     base_of off + ph_paddr p + ph_memsz p <= kernel_end res) /\
  (kernel_end res = 0 \/ exists p, In p (phdrs_of (rd_data r)) /\ is_load p = true /\
     kernel_end res = base_of off + ph_paddr p + ph_memsz p).
Proof.
  intros until res. intros H. use_spec H. post_cases Hpost; try discriminate. inversion Ho; subst res. cbn.
  destruct Hsg as (_ & _ & Hlt & _). split; [reflexivity|]. split; [exact Hlt|]. split; [reflexivity|].
  assert (Hle : forall p, In p (phdrs_of (rd_data r)) -> is_load p = true -> end_of off p <= max_end off (phdrs_of (rd_data r))).
  { intros p Hp Hl. unfold max_end. assert (In p (loaded (phdrs_of (rd_data r)))) as Hin by now apply filter_In.
    clear - Hin. induction (loaded (phdrs_of (rd_data r))) as [|q l IH]; [contradiction|]. cbn. destruct Hin as [->|Hin]; [lia|].
    specialize (IH Hin). lia. }
  assert (Hex : max_end off (phdrs_of (rd_data r)) = 0 \/ exists p, In p (phdrs_of (rd_data r)) /\ is_load p = true /\ max_end off (phdrs_of (rd_data r)) = end_of off p).
  { unfold max_end. assert (Hsub : forall p, In p (loaded (phdrs_of (rd_data r))) -> In p (phdrs_of (rd_data r)) /\ is_load p = true) by (intros p Hp; now apply filter_In).
    clear - Hsub. induction (loaded (phdrs_of (rd_data r))) as [|q l IH]; [now left|]. right.
    destruct IH as [E|(p & H1 & H2 & H3)].
    - intros p Hp. apply Hsub. now right.
    - exists q. destruct (Hsub q (or_introl eq_refl)). cbn. split; [assumption|]. split; [assumption|]. rewrite E. lia.
    - cbn. rewrite H3. destruct (N.max_spec (end_of off q) (end_of off p)) as [[_ E]|[_ E]].
      + exists p. auto.
      + exists q. destruct (Hsub q (or_introl eq_refl)). auto. }
  split; [|split; [exact Hle|exact Hex]].
  destruct Hex as [E|(p & H1 & H2 & E)]; [rewrite E; reflexivity|]. rewrite E. unfold end_of.
  rewrite Forall_forall in Hfine. destruct (Hfine p H1); congruence || assumption.
Qed.
Example C21_applies : forall bld be, exists m' res,
  runs bld be None None (plain_reader demo_elf) demo_mem m' (Ok res) /\ kernel_load res = 0x1000100 /\ kernel_end res = 0x1000020.
Proof.
  intros bld be. destruct bld, be; eexists _, _; (split; [split; [apply plain_wf; reflexivity|split; [reflexivity|eexists; vm_compute; reflexivity]]|split; reflexivity]).
Qed.

(** ** C22: bad headers. *)
Theorem C22_elf_bad_header : forall bld be off highmem r m m' o e,
  runs bld be off highmem r m m' o -> header_problem (rd_data r) e ->
  m' = m /\ (exists e', o = Err e') /\ (~ io_trouble be r -> o = Err (LElf e)).
Proof.
  intros until e. intros H He. use_spec H.
  assert (Hns : ~ start_good (rd_data r) (rd_maxpos r) off highmem) by (intros (G & _); eapply header_problem_bad; eassumption).
  split; [now apply Hearly|]. post_cases Hpost; try contradiction.
  - split; [eauto|]. intros _. rewrite Ho. do 2 f_equal. eapply start_problem_det; [exact Hsp|]. now apply sp_header.
  - split; [eauto|]. intros Hn. contradiction.
Qed.

Theorem C22_elf_ok_good_header : forall bld be off highmem r m m' res,
  runs bld be off highmem r m m' (Ok res) -> header_good (rd_data r).
Proof. intros until res. intros H. use_spec H. post_cases Hpost; try discriminate. apply Hsg. Qed.

Example C22_applies :
  header_problem (ehdr_bytes 2 0 64 56 0) BigEndianElfOnLittle /\
  header_problem (ehdr_bytes 1 0 63 56 0) InvalidProgramHeaderOffset /\
  header_problem (zeros 64) InvalidElfMagicNumber.
Proof.
  split; [apply hp_data; [vm_compute; discriminate|repeat split|vm_compute; discriminate]|].
  split; [apply hp_phoff; [vm_compute; discriminate|repeat split|reflexivity|reflexivity|reflexivity]|].
  apply hp_magic; [vm_compute; discriminate|]. intros (H & _). discriminate H.
Qed.

(** ** C23: the high memory check. *)
Theorem C23_elf_highmem : forall bld be off h r m m' o,
  runs bld be off (Some h) r m m' o ->
  (forall res, o = Ok res -> h <= entry_of (rd_data r)) /\
  (header_good (rd_data r) -> entry_of (rd_data r) < h ->
     m' = m /\ (exists e, o = Err e) /\ (~ io_trouble be r -> o = Err (LElf InvalidEntryAddress))).
Proof.
  intros until o. intros H. use_spec H. split.
  - intros res ->. post_cases Hpost; try discriminate. apply Hsg.
  - intros Hg Hlt. assert (Hnh : ~ highmem_ok (rd_data r) (Some h)) by (cbn; lia).
    assert (Hns : ~ start_good (rd_data r) (rd_maxpos r) off (Some h)) by (intros (_ & G & _); contradiction).
    split; [now apply Hearly|]. post_cases Hpost; try contradiction.
    + split; [eauto|]. intros _. rewrite Ho. do 2 f_equal. eapply start_problem_det; [exact Hsp|]. now apply sp_entry.
    + split; [eauto|]. intros Hn. contradiction.
Qed.

Example C23_applies : header_good demo_elf /\ entry_of demo_elf < 0x1000101.
Proof. split; [|reflexivity]. repeat split; vm_compute; discriminate. Qed.

(** ** C24: addresses never wrap. *)
Theorem C24_elf_entry_overflow : forall bld be off highmem r m m' o,
  runs bld be off highmem r m m' o -> header_good (rd_data r) -> highmem_ok (rd_data r) highmem ->
  2 ^ 64 <= base_of off + entry_of (rd_data r) ->
  m' = m /\ (exists e, o = Err e) /\ (~ io_trouble be r -> o = Err (LElf ElfOverflow)).
Proof.
  intros until o. intros H Hg Hh Hov'. use_spec H.
  assert (Hns : ~ start_good (rd_data r) (rd_maxpos r) off highmem) by (intros (_ & _ & G & _); lia).
  split; [now apply Hearly|]. post_cases Hpost; try contradiction.
  - split; [eauto|]. intros _. rewrite Ho. do 2 f_equal. eapply start_problem_det; [exact Hsp|]. now apply sp_overflow.
  - split; [eauto|]. intros Hn. contradiction.
Qed.

(** The first program header that is not fine decides the error. *)
Theorem C24_elf_first_error : forall bld be off highmem r m m' o pre p post e,
  runs bld be off highmem r m m' o ->
  start_good (rd_data r) (rd_maxpos r) off highmem ->
  phdrs_of (rd_data r) = pre ++ p :: post ->
  Forall (ph_fine (rd_data r) (rd_maxpos r) m off) pre ->
  ph_error (rd_data r) (rd_maxpos r) m off p e ->
  (exists e', o = Err e') /\
  (~ io_trouble be r ->
     o = Err e /\
     forall x, ~ seg_dest off p x -> gm_byte m' x = overlay (gm_byte m) (segs_of (rd_data r) off pre) x).
Proof.
  intros until e. intros H Hg Hps0 Hpre Hp. use_spec H. destruct Hwr as (_ & Hmp & _).
  post_cases Hpost.
  - exfalso. rewrite Hps0 in Hfine. apply Forall_app in Hfine as [_ Hf]. inversion Hf; subst.
    eapply fine_no_error; eassumption.
  - exfalso. eapply start_problem_bad; eassumption.
  - rename p1 into q. rename pre1 into pre'. rename post1 into post'. rename Hps1 into Hps.
    split; [eauto|]. intros _.
    assert (pre' = pre /\ q = p) as [-> ->].
    { rewrite Hps0 in Hps. clear - Hps Hpre Hfine Hp Hpe Hmp. revert pre' Hps Hfine.
      induction pre as [|x pre IH]; intros [|y pre'] Hps Hfine; cbn in Hps.
      - inversion Hps. auto.
      - inversion Hps; subst. inversion Hfine; subst. exfalso. eapply fine_no_error; eassumption.
      - inversion Hps; subst. inversion Hpre; subst. exfalso. eapply fine_no_error; eassumption.
      - inversion Hps; subst. inversion Hpre; subst. inversion Hfine; subst.
        destruct (IH H3 pre' H1 H5) as [-> ->]. auto. }
    split; [rewrite Ho; f_equal; eapply error_det; eassumption|exact Hov].
  - split; [eauto|]. intros Hn. contradiction.
Qed.

Theorem C24_elf_address_overflow : forall bld be off highmem r m m' o pre p post,
  runs bld be off highmem r m m' o -> ~ io_trouble be r ->
  start_good (rd_data r) (rd_maxpos r) off highmem ->
  phdrs_of (rd_data r) = pre ++ p :: post ->
  Forall (ph_fine (rd_data r) (rd_maxpos r) m off) pre ->
  is_load p = true ->
  (ph_offset p <= rd_maxpos r -> 2 ^ 64 <= base_of off + ph_paddr p ->
     o = Err (LElf InvalidProgramHeaderAddress)) /\
  (ph_offset p + ph_filesz p <= lenN (rd_data r) ->
   range_backed m (base_of off + ph_paddr p) (ph_filesz p) ->
   base_of off + ph_paddr p < 2 ^ 64 -> 2 ^ 64 <= base_of off + ph_paddr p + ph_memsz p ->
     o = Err MemoryOverflow).
Proof.
  intros until post. intros H Hn Hg Hps Hpre Hl. split; intros.
  - eapply (C24_elf_first_error _ _ _ _ _ _ _ _ _ _ _ _ H Hg Hps Hpre); [|exact Hn]. now apply pe_addr.
  - eapply (C24_elf_first_error _ _ _ _ _ _ _ _ _ _ _ _ H Hg Hps Hpre); [|exact Hn]. now apply pe_end.
Qed.

(** Success means that no sum wrapped. *)
Theorem C24_elf_ok_no_wrap : forall bld be off highmem r m m' res,
  runs bld be off highmem r m m' (Ok res) ->
  base_of off + entry_of (rd_data r) < 2 ^ 64 /\
  forall p, In p (phdrs_of (rd_data r)) -> is_load p = true ->
    base_of off + ph_paddr p + ph_memsz p < 2 ^ 64 /\ base_of off + ph_paddr p + ph_filesz p < 2 ^ 64.
Proof.
  intros until res. intros H. use_spec H. post_cases Hpost; try discriminate. split; [apply Hsg|].
  intros p Hp Hl. rewrite Forall_forall in Hfine. destruct (Hfine p Hp) as [H1 H2 H3 H4|? ? H1|? H1|H1]; try congruence.
  split; [exact H4|]. apply range_backed_bound with (m := m); [exact Hwm| |exact H3].
  unfold is_load in Hl. apply andb_true_iff in Hl as [_ Hl]. apply negb_true_iff, N.eqb_neq in Hl. lia.
Qed.

Definition wrap_elf : bytes :=
  ehdr_bytes 1 0x100 64 56 2 ++ phdr_bytes 1 176 0x1000000 4 4 ++ phdr_bytes 1 176 0x1000008 4 (2 ^ 64 - 0x1000008) ++ [x11; x12; x13; x14].
Example C24_applies :
  (exists r' m', elf_load true TryAccess None None (plain_reader wrap_elf) demo_mem = (r', m', Err MemoryOverflow)) /\
  (exists r' m', elf_load true TryAccess (Some (2 ^ 64 - 0x1000008)) None (plain_reader wrap_elf)
     (mkMem [mkRegion (2 ^ 64 - 100) 99] (fun _ => x00)) = (r', m', Err (LElf InvalidProgramHeaderAddress))) /\
  (exists r' m', elf_load true TryAccess (Some (2 ^ 64 - 0x100)) None (plain_reader wrap_elf) demo_mem = (r', m', Err (LElf ElfOverflow))).
Proof. split; [|split]; eexists _, _; vm_compute; reflexivity. Qed.

(** ** C25: on any outcome only segment destinations are written. *)
Theorem C25_elf_frame : forall bld be off highmem r m m' o,
  runs bld be off highmem r m m' o ->
  same_outside m m' (fun x => exists p, In p (phdrs_of (rd_data r)) /\ seg_dest off p x).
Proof.
  intros until o. intros H. use_spec H. split; [exact Hreg|]. intros x Hx. apply Hun. intros p Hp Hd. apply Hx. eauto.
Qed.
(** A load that fails after it has written. *)
Example C25_applies : exists m' e,
  runs true TryAccess None None (plain_reader (firstn 299 demo_elf)) demo_mem m' (Err e) /\
  peek m' 0xffffff 10 = [xff; x11; x12; x13; x14; x21; x22; x23; x18; xff].
Proof.
  eexists _, _. split; [split; [apply plain_wf; reflexivity|split; [reflexivity|eexists; vm_compute; reflexivity]]|vm_compute; reflexivity].
Qed.

(** ** C26: truncated images. *)
Theorem C26_elf_ok_inside : forall bld be off highmem r m m' res,
  runs bld be off highmem r m m' (Ok res) ->
  table_inside (rd_data r) /\
  forall p, In p (phdrs_of (rd_data r)) -> is_load p = true ->
    ph_offset p + ph_filesz p <= lenN (rd_data r).
Proof.
  intros until res. intros H. use_spec H. post_cases Hpost; try discriminate. split; [apply Hsg|].
  intros p Hp Hl. rewrite Forall_forall in Hfine. destruct (Hfine p Hp); try congruence; assumption.
Qed.

Theorem C26_elf_truncated_fails : forall bld be off highmem r m m' o p,
  runs bld be off highmem r m m' o ->
  In p (phdrs_of (rd_data r)) -> is_load p = true -> lenN (rd_data r) < ph_offset p + ph_filesz p ->
  exists e, o = Err e.
Proof.
  intros until p. intros H Hp Hl Hs. pose proof H as H'. use_spec H. post_cases Hpost; eauto.
  subst o. apply C26_elf_ok_inside in H' as [_ H']. specialize (H' p Hp Hl). lia.
Qed.

(** Every prefix of the demonstration image that cuts a segment is refused. *)
Example C26_applies : forall k, In k [299; 296; 250; 100] -> exists r' m' e,
  elf_load true TryAccess None None (plain_reader (firstn (N.to_nat k) demo_elf)) demo_mem = (r', m', Err e).
Proof. intros k [<-|[<-|[<-|[<-|[]]]]]; eexists _, _, _; vm_compute; reflexivity. Qed.

(** ** C27: exactly the images that are fine are loaded. *)
Theorem C27_elf_complete : forall bld be off highmem r m m' o,
  runs bld be off highmem r m m' o -> ~ io_trouble be r ->
  ((exists res, o = Ok res) <->
   start_good (rd_data r) (rd_maxpos r) off highmem /\
   forall p, In p (phdrs_of (rd_data r)) -> ph_fine (rd_data r) (rd_maxpos r) m off p).
Proof.
  intros until o. intros H Hn. use_spec H. destruct Hwr as (_ & Hmp & _). split.
  - intros [res ->]. post_cases Hpost; try discriminate. split; [exact Hsg|]. now apply Forall_forall.
  - intros [Hg Hf]. post_cases Hpost.
    + eauto.
    + exfalso. eapply start_problem_bad; eassumption.
    + exfalso. eapply fine_no_error; [exact Hmp|apply (Hf p1)|exact Hpe]. rewrite Hps1. apply in_elt.
    + contradiction.
Qed.
Example C27_applies : forall bld be, ~ io_trouble be (plain_reader demo_elf) /\
  (exists m' res, runs bld be None None (plain_reader demo_elf) demo_mem m' (Ok res)) /\
  (exists m' e, runs bld be (Some 0x1000) None (plain_reader demo_elf) demo_mem m' (Err e)).
Proof.
  intros bld be. split; [apply plain_quiet; reflexivity|].
  destruct bld, be; split; eexists _, _; (split; [apply plain_wf; reflexivity|split; [reflexivity|eexists; vm_compute; reflexivity]]).
Qed.

(** ** C28: with an offset, notes are not looked at. *)
Theorem C28_elf_offset_ignores_notes : forall bld be k highmem r m m' o,
  runs bld be (Some k) highmem r m m' o ->
  (forall res, o = Ok res -> pvh_boot_cap res = PvhEntryIgnored) /\
  (~ io_trouble be r ->
   start_good (rd_data r) (rd_maxpos r) (Some k) highmem ->
   (forall p, In p (phdrs_of (rd_data r)) -> is_load p = true ->
      ph_offset p + ph_filesz p <= lenN (rd_data r) /\
      range_backed m (k + ph_paddr p) (ph_filesz p) /\ k + ph_paddr p + ph_memsz p < 2 ^ 64) ->
   exists res, o = Ok res).
Proof.
  intros until o. intros H. split.
  - intros res ->. use_spec H. post_cases Hpost; try discriminate. inversion Ho; subst res. cbn.
    destruct Hcap; [reflexivity|reflexivity|discriminate].
  - intros Hn Hg Hl. apply (C27_elf_complete _ _ _ _ _ _ _ _ H Hn). split; [exact Hg|].
    intros p Hp. destruct (is_load p) eqn:El.
    + destruct (Hl p Hp El) as (H1 & H2 & H3). apply pf_load; assumption.
    + destruct (is_note p) eqn:En; [eapply pf_note_ignored; eauto|now apply pf_other].
Qed.
(** An image whose notes are unreadable is loaded with an offset, and refused without. *)
Definition torn_notes_elf : bytes := firstn 310 demo_elf.
Example C28_applies : ~ io_trouble TryAccess (plain_reader torn_notes_elf) /\
  (exists m' res, runs true TryAccess (Some 0x800) None (plain_reader torn_notes_elf) demo_mem m' (Ok res)) /\
  (exists m' e, runs true TryAccess None None (plain_reader torn_notes_elf) demo_mem m' (Err e)).
Proof.
  split; [apply plain_quiet; reflexivity|].
  split; eexists _, _; (split; [apply plain_wf; reflexivity|split; [reflexivity|eexists; vm_compute; reflexivity]]).
Qed.

(** ** C29: the PVH entry point. *)
Theorem C29_elf_pvh_note : forall bld be highmem r m m' o pre p post ns,
  runs bld be None highmem r m m' o ->
  phdrs_of (rd_data r) = pre ++ p :: post -> is_note p = true ->
  ph_offset p + ph_filesz p <= lenN (rd_data r) ->
  part (rd_data r) (ph_offset p) (ph_filesz p) = enc_notes ns -> Forall note_wf ns ->
  match find is_pvh_note ns with
  | None =>
      forall res, o = Ok res -> (forall q, In q post -> is_note q = false) ->
        pvh_boot_cap res = PvhEntryNotPresent
  | Some n =>
      if lenN (note_desc n) <? 4 then
        (exists e, o = Err e) /\
        (~ io_trouble be r -> start_good (rd_data r) (rd_maxpos r) None highmem ->
         Forall (ph_fine (rd_data r) (rd_maxpos r) m None) pre -> o = Err (LElf InvalidPvhNote))
      else
        forall res, o = Ok res -> (forall q, In q post -> is_note q = false) ->
          pvh_boot_cap res = PvhEntryPresent (u32at (note_desc n) 0)
  end.
Proof.
  intros until ns. intros H Hps Hn Hin Hpart Hwf. pose proof H as H'.
  assert (Hmp : lenN (rd_data r) <= rd_maxpos r) by (destruct H as ((_ & Hmp & _) & _); exact Hmp).
  pose proof (notes_result (rd_data r) (rd_maxpos r) p ns Hmp Hin Hwf Hpart) as Hres.
  assert (Hload : is_load p = false).
  { unfold is_note in Hn. unfold is_load. apply N.eqb_eq in Hn. rewrite Hn. reflexivity. }
  assert (Hok : forall c0, verdict_cap (notes_say ns) = Some c0 ->
    forall res, o = Ok res -> (forall q, In q post -> is_note q = false) -> pvh_boot_cap res = c0).
  { intros c0 Hc0 res -> Hpost0. use_spec H. post_cases Hpost; try discriminate. inversion Ho; subst res. cbn.
    destruct Hcap as [ps Hno|ps k Hk|pre' p' post' v c' _ Hn' Hno Hr Hc].
    - subst ps. rewrite (Hno p) in Hn; [discriminate|]. apply in_elt.
    - discriminate.
    - assert (p' = p).
      { clear - Hps Hn Hn' Hpost0 Hno. revert pre' Hps. induction pre as [|a pre IH]; intros [|b pre'] Hps; cbn in Hps; inversion Hps; subst.
        - reflexivity.
        - rewrite (Hpost0 p') in Hn'; [discriminate|]. apply in_elt.
        - rewrite (Hno p) in Hn; [discriminate|]. apply in_elt.
        - eauto. }
      subst p'. rewrite (note_result_det _ _ _ _ _ Hr Hres) in Hc. congruence. }
  unfold notes_say in Hres, Hok. destruct (find is_pvh_note ns) as [n|]; [|now apply Hok].
  destruct (lenN (note_desc n) <? 4); [|now apply Hok]. split.
  - use_spec H. post_cases Hpost; eauto.
    exfalso. rewrite Forall_forall in Hfine. assert (Hp : In p (phdrs_of (rd_data r))) by (rewrite Hps; apply in_elt).
    eapply fine_no_error; [exact Hmp|apply (Hfine p Hp)|]. eapply pe_note; eauto.
  - intros Hnt Hg Hpre. eapply (C24_elf_first_error _ _ _ _ _ _ _ _ _ _ _ _ H' Hg Hps Hpre); [|exact Hnt].
    now apply pe_note.
Qed.

Example C29_applies :
  exists pre p, phdrs_of demo_elf = pre ++ [p] /\ is_note p = true /\
    ph_offset p + ph_filesz p <= lenN demo_elf /\
    part demo_elf (ph_offset p) (ph_filesz p) = enc_notes demo_notes /\ Forall note_wf demo_notes /\
    find is_pvh_note demo_notes = Some (mkNote 18 [x58; x65; x6e; x00] (le_enc 8 0x1000040)).
Proof.
  exists (firstn 3 (phdrs_of demo_elf)), (ph_at demo_elf 3). split; [vm_compute; reflexivity|].
  split; [vm_compute; reflexivity|]. split; [vm_compute; discriminate|]. split; [vm_compute; reflexivity|].
  split; [|vm_compute; reflexivity]. repeat constructor; vm_compute; discriminate.
Qed.

(** Any note segment whatever, well formed or not: [note_result] gives the verdict, and it is unique. *)
Theorem C29_elf_any_notes : forall bld be highmem r m m' res,
  runs bld be None highmem r m m' (Ok res) ->
  (forall p, In p (phdrs_of (rd_data r)) -> is_note p = false) /\ pvh_boot_cap res = PvhEntryIgnored \/
  exists pre p post v, phdrs_of (rd_data r) = pre ++ p :: post /\ is_note p = true /\
    (forall q, In q post -> is_note q = false) /\
    note_result (rd_data r) (rd_maxpos r) p v /\ verdict_cap v = Some (pvh_boot_cap res).
Proof.
  intros until res. intros H. use_spec H. post_cases Hpost; try discriminate. inversion Ho; subst res. cbn.
  destruct Hcap as [ps Hno|ps k Hk|pre' p' post' v c' _ Hn' Hno Hr Hc]; [auto|discriminate|].
  right. exists pre', p', post', v. auto.
Qed.

(** The verdict of the specification always exists and is unique, whatever the segment contains. *)
Lemma note_scan_exists f maxpos start fsz : forall k rs, lenN f < start + rs + 12 * N.of_nat k \/ fsz <= rs ->
  exists v, note_scan f maxpos start fsz rs v.
Proof.
  induction k as [|k IH]; intros rs Hk; (destruct (N.le_gt_cases fsz rs) as [Hge|Hlt]; [exists NoteAbsent; now constructor|]);
    (destruct (N.lt_ge_cases (lenN f) (start + rs + 12)) as [Hs|Hs]; [eexists; apply ns_no_header; assumption|]); [lia|].
  set (nsz := u32at f (start + rs)). set (dsz := u32at f (start + rs + 4)).
  assert (Hnext : (u32at f (start + rs + 8) = 18 -> nsz = 4 ->
      start + rs + 16 <= lenN f /\ part f (start + rs + 12) 4 <> [x58; x65; x6e; x00]) -> exists v, note_scan f maxpos start fsz rs v).
  { intros Hnx. destruct (N.lt_ge_cases (pad4 nsz) (2 ^ 32)) as [H1|H1]; [|eexists; apply ns_huge; auto].
    destruct (N.lt_ge_cases (pad4 dsz) (2 ^ 32)) as [H2|H2]; [|eexists; apply ns_huge; auto].
    destruct (N.le_gt_cases (start + (rs + 12 + pad4 nsz + pad4 dsz)) maxpos) as [H3|H3]; [|eexists; apply ns_unseekable; auto].
    destruct (IH (rs + 12 + pad4 nsz + pad4 dsz)) as [v Hv]; [lia|]. exists v. apply ns_skip; auto. }
  destruct (N.eq_dec (u32at f (start + rs + 8)) 18) as [Ht|Ht]; [|apply Hnext; contradiction].
  destruct (N.eq_dec nsz 4) as [Hn|Hn]; [|apply Hnext; contradiction].
  destruct (N.lt_ge_cases (lenN f) (start + rs + 16)) as [H1|H1]; [eexists; apply ns_no_name; assumption|].
  destruct (list_eq_dec Byte.byte_eq_dec (part f (start + rs + 12) 4) [x58; x65; x6e; x00]) as [Hx|Hx]; [|apply Hnext; auto].
  destruct (N.lt_ge_cases dsz 4) as [H2|H2]; [eexists; apply ns_small; assumption|].
  destruct (N.lt_ge_cases (lenN f) (start + rs + 20)) as [H3|H3]; [eexists; apply ns_no_desc; assumption|].
  eexists; apply ns_found; assumption.
Qed.
Theorem C29_verdict_unique : forall f maxpos p,
  exists v, note_result f maxpos p v /\ forall v', note_result f maxpos p v' -> v' = v.
Proof.
  intros f maxpos p. assert (exists v, note_result f maxpos p v) as [v Hv].
  { destruct (N.le_gt_cases (ph_offset p) maxpos) as [H|H]; [|eexists; now apply nr_unseekable].
    destruct (note_scan_exists f maxpos (ph_offset p) (ph_filesz p) (S (N.to_nat (lenN f))) 0) as [v Hv]; [lia|]. exists v. now apply nr_scan. }
  exists v. split; [exact Hv|]. intros v' Hv'. eapply note_result_det; eassumption.
Qed.

(** ** C30: termination, no overflow, no panic; debug and release builds agree. *)
Theorem C30_elf_no_panic : forall bld be off highmem r m r' m' o,
  wf_reader r -> wf_mem m = true -> elf_load bld be off highmem r m = (r', m', o) -> forall p, o <> Panic p.
Proof.
  intros until o. intros Hwr Hwm E p ->. pose proof (elf_load_spec _ _ _ _ _ _ _ _ _ Hwr Hwm E) as (_ & _ & _ & _ & Hpost).
  post_cases Hpost; discriminate.
Qed.

Theorem C30_elf_builds_agree : forall be off highmem r m,
  wf_reader r -> wf_mem m = true ->
  elf_load true be off highmem r m = elf_load false be off highmem r m.
Proof.
  intros be off highmem r m Hwr Hwm. destruct (elf_load_agree be off highmem r m) as [E|(r' & m' & p & E)]; [exact E|].
  exfalso. eapply C30_elf_no_panic; eauto.
Qed.

(** The loop's iteration bound is never reached, and a larger bound changes nothing. *)
Theorem C30_note_loop_bound : forall bld phdr k r m,
  wf_reader r -> rd_pos r = phdr_get "p_offset" phdr ->
  note_loop bld (note_fuel r + k) phdr 0 (default_of Elf64_Nhdr) r m =
  note_loop bld (note_fuel r) phdr 0 (default_of Elf64_Nhdr) r m /\
  forall p, snd (note_loop bld (note_fuel r) phdr 0 (default_of Elf64_Nhdr) r m) <> Panic p.
Proof. exact note_loop_bound. Qed.

Definition all_ff_notes : bytes := ehdr_bytes 1 0 64 56 1 ++ phdr_bytes 4 120 0 (2 ^ 64 - 1) 0 ++ repeat xff 100.
Example C30_applies : wf_reader (plain_reader all_ff_notes) /\
  exists r' m', elf_load true TryAccess None None (plain_reader all_ff_notes) demo_mem = (r', m', Err (LElf ElfOverflow)).
Proof. split; [apply plain_wf; reflexivity|]. eexists _, _; vm_compute; reflexivity. Qed.

(** ** C31: the last PT_NOTE segment wins; a PVH note in an earlier one is lost. *)
Theorem C31_elf_single_note_segment : forall bld be highmem r m m' res pre p post a,
  runs bld be None highmem r m m' (Ok res) ->
  phdrs_of (rd_data r) = pre ++ p :: post -> is_note p = true ->
  note_result (rd_data r) (rd_maxpos r) p (NoteFound a) ->
  (forall q, In q post -> is_note q = true -> note_result (rd_data r) (rd_maxpos r) q (NoteFound a)) ->
  pvh_boot_cap res = PvhEntryPresent a.
Proof.
  intros until a. intros H Hps Hn Hr Hpost0. apply C29_elf_any_notes in H as [[Hno _]|(pre' & p' & post' & v & Hps' & Hn' & Hno & Hr' & Hc)].
  - rewrite (Hno p) in Hn; [discriminate|]. rewrite Hps. apply in_elt.
  - assert (note_result (rd_data r) (rd_maxpos r) p' (NoteFound a)) as Hr2.
    { rewrite Hps in Hps'. clear - Hps' Hn Hn' Hr Hpost0 Hno. revert pre' Hps'.
      induction pre as [|x pre IH]; intros [|y pre'] Hps'; cbn in Hps'; inversion Hps'; subst.
      - exact Hr.
      - apply Hpost0; [apply in_elt|exact Hn'].
      - rewrite (Hno p) in Hn; [discriminate|]. apply in_elt.
      - eauto. }
    rewrite (note_result_det _ _ _ _ _ Hr' Hr2) in Hc. cbn in Hc. congruence.
Qed.
Example C31_applies : exists m' res, runs true TryAccess None None (plain_reader demo_elf) demo_mem m' (Ok res) /\
  phdrs_of demo_elf = [ph_at demo_elf 0; ph_at demo_elf 1; ph_at demo_elf 2] ++ ph_at demo_elf 3 :: [] /\
  is_note (ph_at demo_elf 3) = true /\ note_result demo_elf (2 ^ 63 - 1) (ph_at demo_elf 3) (NoteFound 0x1000040).
Proof.
  eexists _, _. split; [split; [apply plain_wf; reflexivity|split; [reflexivity|eexists; vm_compute; reflexivity]]|].
  split; [vm_compute; reflexivity|]. split; [reflexivity|].
  change (NoteFound 0x1000040) with (notes_say demo_notes). apply notes_result.
  - vm_compute. discriminate.
  - vm_compute. discriminate.
  - repeat constructor; vm_compute; discriminate.
  - vm_compute. reflexivity.
Qed.

Definition two_notes_elf : bytes :=
  ehdr_bytes 1 0 64 56 2 ++
  phdr_bytes 4 176 0 (lenN (enc_notes demo_notes)) 0 ++
  phdr_bytes 4 (176 + lenN (enc_notes demo_notes)) 0 (lenN (enc_notes [mkNote 1 [x47] []])) 0 ++
  enc_notes demo_notes ++ enc_notes [mkNote 1 [x47] []].

(** The property as first stated is false. *)
Theorem C31_elf_note_lost_refuted : exists m' res,
  runs true TryAccess None None (plain_reader two_notes_elf) demo_mem m' (Ok res) /\
  note_result two_notes_elf (2 ^ 63 - 1) (ph_at two_notes_elf 0) (NoteFound 0x1000040) /\
  In (ph_at two_notes_elf 0) (phdrs_of two_notes_elf) /\
  pvh_boot_cap res = PvhEntryNotPresent.
Proof.
  eexists _, _. split; [split; [apply plain_wf; reflexivity|split; [reflexivity|]]; eexists; vm_compute; reflexivity|].
  split.
  - change (NoteFound 0x1000040) with (notes_say demo_notes). apply notes_result.
    + vm_compute. discriminate.
    + vm_compute. discriminate.
    + repeat constructor; vm_compute; discriminate.
    + vm_compute. reflexivity.
  - split; [left; reflexivity|]. reflexivity.
Qed.

(** ** C32: kernel_end is past every loaded byte, if p_memsz >= p_filesz. *)
Theorem C32_elf_kernel_end : forall bld be off highmem r m m' res,
  runs bld be off highmem r m m' (Ok res) ->
  (forall p, In p (phdrs_of (rd_data r)) -> is_load p = true -> ph_filesz p <= ph_memsz p) ->
  same_outside m m' (fun x => x < kernel_end res) /\
  forall p x, In p (phdrs_of (rd_data r)) -> seg_dest off p x -> x < kernel_end res.
Proof.
  intros until res. intros H Hms. pose proof (C21_elf_addresses _ _ _ _ _ _ _ _ H) as (_ & _ & _ & _ & Hle & _).
  pose proof (C25_elf_frame _ _ _ _ _ _ _ _ H) as Hfr.
  assert (Hd : forall p x, In p (phdrs_of (rd_data r)) -> seg_dest off p x -> x < kernel_end res).
  { intros p x Hp [Hl [H1 H2]]. specialize (Hle p Hp Hl). specialize (Hms p Hp Hl). lia. }
  split; [|exact Hd]. eapply same_outside_mono; [|exact Hfr]. intros x (p & Hp & Hx). eauto.
Qed.
Example C32_applies : (exists m' res, runs true TryAccess None None (plain_reader demo_elf) demo_mem m' (Ok res)) /\
  forall p, In p (phdrs_of demo_elf) -> is_load p = true -> ph_filesz p <= ph_memsz p.
Proof.
  split; [eexists _, _; split; [apply plain_wf; reflexivity|split; [reflexivity|eexists; vm_compute; reflexivity]]|].
  intros p Hp Hl. assert (E : phdrs_of demo_elf = [ph_at demo_elf 0; ph_at demo_elf 1; ph_at demo_elf 2; ph_at demo_elf 3]) by (vm_compute; reflexivity).
  rewrite E in Hp. destruct Hp as [<-|[<-|[<-|[<-|[]]]]]; vm_compute; discriminate.
Qed.

Definition short_memsz_elf : bytes :=
  ehdr_bytes 1 0x100 64 56 1 ++ phdr_bytes 1 120 0x1000000 4 1 ++ [x11; x12; x13; x14].
(** Without the condition the claim is false: the loader does not compare the two sizes. *)
Theorem C32_elf_short_memsz_refuted : exists m' res,
  runs true TryAccess None None (plain_reader short_memsz_elf) demo_mem m' (Ok res) /\
  gm_byte m' 0x1000003 <> gm_byte demo_mem 0x1000003 /\ kernel_end res <= 0x1000003.
Proof.
  eexists _, _. split; [split; [apply plain_wf; reflexivity|split; [reflexivity|]]; eexists; vm_compute; reflexivity|].
  split; vm_compute; discriminate.
Qed.

(** ** C33: rounding up. *)
Theorem C33_align_up_least : forall bld a align x,
  a < 2 ^ 32 -> align <= 2 ^ 32 -> align_up bld a align = Ok x ->
  a <= x /\ (exists k, x = k * align) /\ forall k, a <= k * align -> x <= k * align.
Proof.
  intros bld a align x Ha Hal H. destruct (is_power_of_two align) eqn:Ep.
  2:{ unfold align_up in H. rewrite Ep in H. discriminate. }
  apply is_power_of_two_spec in Ep as [k ->]. rewrite align_up_pow in H. cbv zeta in H.
  pose proof (pow2_pos k) as Hk. pose proof (N.div_mod a (2 ^ k) ltac:(lia)) as Hdm. pose proof (N.mod_lt a (2 ^ k) ltac:(lia)) as Hml.
  set (d := a / 2 ^ k) in *. set (w := 2 ^ k) in *.
  destruct (N.eqb_spec (a mod w) 0) as [E|E].
  - inversion H; subst x. split; [lia|]. split; [exists d; lia|]. auto.
  - assert (Hb : (d + 1) * w < two64).
    { unfold two64. change (2 ^ 32) with 4294967296 in *. assert (d * w <= a) by lia. lia. }
    rewrite (proj2 (N.ltb_lt _ _)) in H by assumption. inversion H; subst x.
    split; [lia|]. split; [exists (d + 1); lia|]. intros j Hj.
    destruct (N.le_gt_cases (d + 1) j) as [Hjd|Hjd].
    + apply N.mul_le_mono_r. exact Hjd.
    + exfalso. assert (j <= d) as Hjd' by lia. assert (j * w <= d * w) by (apply N.mul_le_mono_r; exact Hjd').
      assert (a = d * w) by lia. lia.
Qed.

Theorem C33_align_up_total : forall bld a k,
  a < 2 ^ 32 -> k <= 32 -> exists x, align_up bld a (2 ^ k) = Ok x.
Proof.
  intros bld a k Ha Hk. rewrite align_up_pow. cbv zeta. destruct (a mod 2 ^ k =? 0); [eauto|].
  pose proof (pow2_pos k) as Hp. pose proof (N.mul_div_le a (2 ^ k) ltac:(lia)).
  assert (2 ^ k <= 2 ^ 32) by (apply N.pow_le_mono_r; lia). change (2 ^ 32) with 4294967296 in *.
  rewrite (proj2 (N.ltb_lt _ _)) by (unfold two64; lia). eauto.
Qed.

Theorem C33_align_up_refuses : forall bld a n, (forall k, n <> 2 ^ k) -> align_up bld a n = Err (LElf Align).
Proof. exact align_up_bad. Qed.

(** Every 64-bit value: with [x] the least multiple not below [a] (it always exists), the result is
    [x] whenever a 64-bit integer can hold it; otherwise a debug build panics and a release build
    answers 0. *)
Theorem C33_align_up_exact : forall bld a k, a < 2 ^ 64 -> k < 64 ->
  exists x, (a <= x /\ (exists j, x = j * 2 ^ k) /\ forall j, a <= j * 2 ^ k -> x <= j * 2 ^ k) /\
    (x < 2 ^ 64 -> align_up bld a (2 ^ k) = Ok x) /\
    (2 ^ 64 <= x -> align_up bld a (2 ^ k) = if bld then Panic ArithOverflow else Ok 0).
Proof.
  intros bld a k Ha Hk. rewrite align_up_pow. cbv zeta.
  pose proof (pow2_pos k) as Hp. pose proof (N.div_mod a (2 ^ k) ltac:(lia)) as Hdm. pose proof (N.mod_lt a (2 ^ k) ltac:(lia)) as Hml.
  assert (Hw : exists q, 2 ^ 64 = q * 2 ^ k).
  { exists (2 ^ (64 - k)). rewrite <- N.pow_add_r. f_equal. lia. }
  destruct Hw as [q Hq].
  set (d := a / 2 ^ k) in *. set (w := 2 ^ k) in *. change two64 with (2 ^ 64).
  destruct (N.eqb_spec (a mod w) 0) as [E|E].
  - exists a. split; [split; [lia|split; [exists d; lia|auto]]|]. split; [reflexivity|]. lia.
  - exists ((d + 1) * w). split; [split; [lia|split; [eauto|]]|].
    { intros j Hj. apply N.mul_le_mono_r. assert (d * w < j * w) by lia. apply N.mul_lt_mono_pos_r in H; lia. }
    split; intros H.
    + rewrite (proj2 (N.ltb_lt _ _)) by exact H. reflexivity.
    + rewrite (proj2 (N.ltb_ge _ _)) by exact H. destruct bld; [reflexivity|]. f_equal.
      assert (E2 : (d + 1) * w = 2 ^ 64).
      { assert (d * w < q * w) by lia. apply N.mul_lt_mono_pos_r in H0; [|lia].
        assert ((d + 1) * w <= q * w) by (apply N.mul_le_mono_r; lia). lia. }
      rewrite E2. apply N.mod_same. discriminate.
Qed.

(** The comment "at maximum 2^64 - 1" in the source is wrong: for large addresses the sum overflows. *)
Theorem C33_align_up_overflow_refuted :
  align_up true (2 ^ 64 - 1) 4 = Panic ArithOverflow /\ align_up false (2 ^ 64 - 1) 4 = Ok 0.
Proof. split; vm_compute; reflexivity. Qed.

Example C33_applies : align_up true 13 8 = Ok 16 /\ align_up false 16 8 = Ok 16 /\ align_up true 5 6 = Err (LElf Align).
Proof. repeat split; vm_compute; reflexivity. Qed.
