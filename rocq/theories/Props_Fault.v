(** * Props_Fault: when the image source fails, C67.

    The error returned names the step that failed, and what had been written so far is known.
    [rd_fault r k i]: the source fails the [i]-th operation if that is of kind [k] (seeking or
    reading); [rd_ops r]: how many operations were performed before the load.  Vocabulary:
    SpecFile.v ([seek_trouble], [read_fault], [read_trouble]), SpecElf.v ([start_trouble], [ph_trouble]). *)
From Verif Require Import Base Base_proofs Io Mem SpecMem Mem_proofs Layout Loader Elf BzImage Pe SpecFile SpecElf SpecBz SpecPe
  File_proofs Elf_proofs Elf_proofs2 Bz_proofs Pe_proofs Demo_elf Props_Elf Props_Bz Props_Pe.
Open Scope loader_scope.

(** ** ELF: every error is due to the image and arguments, or to a failing operation of the step it names;
    all program headers before the culprit were fine and their segments are in place. *)
Theorem C67_elf_error_explained : forall bld be off highmem r m m' e,
  runs bld be off highmem r m m' (Err e) ->
  let f := rd_data r in
  (exists e', e = LElf e' /\ m' = m /\
     (start_problem f (rd_maxpos r) off highmem e' \/ start_trouble r off highmem e')) \/
  (exists pre p post, phdrs_of f = pre ++ p :: post /\ start_good f (rd_maxpos r) off highmem /\
     Forall (ph_fine f (rd_maxpos r) m off) pre /\
     (ph_error f (rd_maxpos r) m off p e \/ ph_trouble be r off p e) /\
     (forall x, ~ seg_dest off p x -> gm_byte m' x = overlay (gm_byte m) (segs_of f off pre) x)).
Proof.
  intros until e. intros H. use_spec H. cbv zeta.
  destruct Hpost as [(c & Ho & _)|[(e0 & Ho & Hs & Hm)|[(pre & p & post & e0 & Hps & Ho & Hsg & Hf & He & Hov)|[(e0 & Ho & Hs & Hm)|(pre & p & post & e0 & Hps & Ho & Hsg & Hf & He & Hov)]]]].
  - discriminate.
  - injection Ho as ->. left. exists e0. auto.
  - injection Ho as ->. right. exists pre, p, post. auto 7.
  - injection Ho as ->. left. exists e0. auto.
  - injection Ho as ->. right. exists pre, p, post. auto 7.
Qed.

(** A source that seeks without failing never causes a seek error inside itself, one that reads
    without failing never causes a read error inside the image. *)
Theorem C67_elf_kinds : forall bld be off highmem r m m' e,
  runs bld be off highmem r m m' (Err (LElf e)) ->
  (e = SeekElfStart -> seek_trouble r) /\
  (e = ReadElfHeader -> read_fault r \/ lenN (rd_data r) < 64) /\
  (e = SeekProgramHeader -> seek_trouble r \/ rd_maxpos r < phoff_of (rd_data r)) /\
  (e = ReadProgramHeader -> read_fault r \/ ~ table_inside (rd_data r)) /\
  (e = SeekKernelStart -> exists p, In p (phdrs_of (rd_data r)) /\ is_load p = true /\
     (seek_trouble r \/ rd_maxpos r < ph_offset p)) /\
  (e = ReadKernelImage -> exists p, In p (phdrs_of (rd_data r)) /\ is_load p = true /\
     (read_trouble be r \/ lenN (rd_data r) < ph_offset p + ph_filesz p \/
      ~ range_backed m (base_of off + ph_paddr p) (ph_filesz p))) /\
  (e = SeekNoteHeader \/ e = ReadNoteHeader -> off = None /\ exists p, In p (phdrs_of (rd_data r)) /\ is_note p = true).
Proof.
  intros until e. intros H. apply C67_elf_error_explained in H. cbv zeta in H.
  assert (Hin : forall pre p post, phdrs_of (rd_data r) = pre ++ p :: post -> In p (phdrs_of (rd_data r))).
  { intros pre p post ->. apply in_or_app. right. now left. }
  destruct H as [(e' & E & _ & [H|H])|(pre & p & post & Hps & _ & _ & [H|H] & _)].
  - injection E as <-.
    assert (Hb : e = ReadElfHeader /\ lenN (rd_data r) < 64 \/ e = SeekProgramHeader /\ rd_maxpos r < phoff_of (rd_data r) \/
      e = ReadProgramHeader /\ ~ table_inside (rd_data r) \/
      ~ In e [SeekElfStart; ReadElfHeader; SeekProgramHeader; ReadProgramHeader; SeekKernelStart; ReadKernelImage; SeekNoteHeader; ReadNoteHeader]).
    { destruct H as [e0 []| | | |]; auto; right; right; right; cbn; intuition discriminate. }
    destruct Hb as [(-> & Hb)|[(-> & Hb)|[(-> & Hb)|Hb]]];
      (split; [intros E|split; [intros E|split; [intros E|split; [intros E|split; [intros E|split; [intros E|intros E]]]]]]);
      try discriminate; auto; try (destruct E; discriminate); exfalso; apply Hb; subst; cbn; auto 10; destruct E; subst; auto 10.
  - injection E as <-.
    destruct H as [H|H|? ? ? H|? ? ? ? H];
      (split; [intros E|split; [intros E|split; [intros E|split; [intros E|split; [intros E|split; [intros E|intros E]]]]]]);
      try discriminate; auto; destruct E; discriminate.
  - pose proof (Hin _ _ _ Hps) as Hp. remember (LElf e) as le eqn:El.
    destruct H as [H1 H2|H1 H2 H3|H1 H2 H3 H4|H1 H2 H3 H4 H5|e' H1 H2 H3 H4]; try discriminate; injection El as <-;
      (split; [intros E|split; [intros E|split; [intros E|split; [intros E|split; [intros E|split; [intros E|intros E]]]]]]);
      try discriminate; try (destruct E; discriminate); eauto 6.
    all: try (subst e'; exfalso; destruct H4 as [?|v Hx Hy]; [discriminate|]).
    all: try (inversion H4 as [Hz|v Hx Hy]; subst).
    all: try discriminate.
    all: try match goal with Hy : note_scan _ _ _ _ ?rs (NoteBad ?e) |- _ => exfalso; remember (NoteBad e) as vv eqn:Ev; induction Hy; try discriminate; auto end.
  - pose proof (Hin _ _ _ Hps) as Hp. remember (LElf e) as le eqn:El.
    destruct H as [H1 H2|H1 H2 H3 H4|H1 H2 H3 H4|H1 H2 H3 H4]; injection El as <-;
      (split; [intros E|split; [intros E|split; [intros E|split; [intros E|split; [intros E|split; [intros E|intros E]]]]]]);
      try discriminate; try (destruct E; discriminate); eauto 6.
Qed.

(** The first steps of the ELF loader, operation by operation. *)
Lemma read_phdrs_fault n : forall r m i, (i < n)%nat -> rd_fault r Reading (rd_ops r + i) = true ->
  exists r', read_phdrs n r m = (r', m, Err (LElf ReadProgramHeader)).
Proof.
  induction n as [|n IH]; intros r m i Hi Hf; [lia|]. cbn [read_phdrs]. rewrite lbind_lio.
  destruct (read_exact_cases r (size Elf64_Phdr)) as [(r1 & E1 & _)|[E1 _]]; rewrite E1; [eauto|].
  destruct i as [|i].
  { exfalso. rewrite Nat.add_0_r in Hf. unfold read_exact in E1. rewrite Hf in E1. discriminate. }
  unfold lbind. destruct (IH (rd_step r (rd_pos r + size Elf64_Phdr)) m i) as [r' E].
  - lia.
  - cbn [rd_fault rd_step rd_ops]. replace (S (rd_ops r) + i)%nat with (rd_ops r + S i)%nat by lia. exact Hf.
  - rewrite E. eauto.
Qed.

Theorem C67_elf_first_steps : forall bld be off highmem r m m' o,
  runs bld be off highmem r m m' o ->
  let f := rd_data r in
  let n := rd_ops r in
  (rd_fault r Seeking n = true -> o = Err (LElf SeekElfStart) /\ m' = m) /\
  (rd_fault r Seeking n = false ->
   (rd_fault r Reading (n + 1) = true -> o = Err (LElf ReadElfHeader) /\ m' = m) /\
   (rd_fault r Reading (n + 1) = false ->
    header_good f -> highmem_ok f highmem -> base_of off + entry_of f < 2 ^ 64 ->
    (rd_fault r Seeking (n + 2) = true -> o = Err (LElf SeekProgramHeader) /\ m' = m) /\
    (rd_fault r Seeking (n + 2) = false -> phoff_of f <= rd_maxpos r ->
     (exists i, (i < N.to_nat (phnum_of f))%nat /\ rd_fault r Reading (n + 3 + i) = true) ->
     o = Err (LElf ReadProgramHeader) /\ m' = m))).
Proof.
  intros until o. intros (Hwr & Hwm & r' & H). cbv zeta. unfold elf_load in H. rewrite lbind_lio in H.
  split.
  { intros E. unfold seek_start in H. rewrite E in H. inversion H. auto. }
  intros E0. unfold seek_start in H at 1. rewrite E0 in H. rewrite (proj2 (N.ltb_ge _ _)) in H by lia.
  rewrite lbind_lio in H. change (size Elf64_Ehdr) with 64 in H. set (r1 := rd_step r 0) in *.
  assert (R1 : forall k, rd_fault r1 k (rd_ops r1) = rd_fault r k (rd_ops r + 1)).
  { intros k. cbn. f_equal. lia. }
  split.
  { intros E. unfold read_exact in H. rewrite R1, E in H. inversion H. auto. }
  intros E1 Hg Hh Hb. pose proof Hg as (Hl & Hmg & H5 & Hps & Hpo).
  unfold read_exact in H at 1. rewrite R1, E1 in H. change (rd_pos r1) with 0 in H. unfold rd_len in H. change (rd_data r1) with (rd_data r) in H.
  rewrite (proj2 (N.ltb_ge _ _)) in H by lia. rewrite N.add_0_l in H.
  destruct (validate_header_spec (rd_data r) Hl) as [[Ev _]|(e & Ev & Hprob)].
  2:{ exfalso. eapply header_problem_bad; eassumption. }
  rewrite Ev, lbind_ok, ehdr_entry, ehdr_phoff, ehdr_phnum in H by assumption.
  assert (Eh : match highmem with
               | Some addr => if entry_of (rd_data r) <? addr then lfail (LElf InvalidEntryAddress) else lret tt
               | None => lret tt end = lret tt).
  { destruct highmem as [h|]; [|reflexivity]. cbn in Hh. rewrite (proj2 (N.ltb_ge _ _)) by lia. reflexivity. }
  rewrite Eh, lbind_ret in H.
  assert (Hent : match off with
                 | Some k => ok_or (checked_add k (entry_of (rd_data r))) (LElf ElfOverflow)
                 | None => Ok (entry_of (rd_data r)) end = Ok (base_of off + entry_of (rd_data r))).
  { destruct off as [k|]; cbn [base_of] in *; [|now rewrite N.add_0_l]. unfold checked_add.
    rewrite (proj2 (N.ltb_lt _ _)) by exact Hb. reflexivity. }
  rewrite Hent, lbind_ok, lbind_lio in H. set (r2 := rd_step r1 64) in *.
  assert (R2 : forall k, rd_fault r2 k (rd_ops r2) = rd_fault r k (rd_ops r + 2)).
  { intros k. cbn. f_equal. lia. }
  split.
  { intros E. unfold seek_start in H. rewrite R2, E in H. inversion H. auto. }
  intros E2 Hmp (i & Hi & Hf). unfold seek_start in H. rewrite R2, E2 in H. change (rd_maxpos r2) with (rd_maxpos r) in H.
  rewrite (proj2 (N.ltb_ge _ _)) in H by lia. unfold lbind at 1 in H.
  destruct (read_phdrs_fault (N.to_nat (phnum_of (rd_data r))) (rd_step r2 (phoff_of (rd_data r))) m i Hi) as [r3 E3].
  { change (rd_fault r Reading (S (S (S (rd_ops r))) + i) = true). replace (S (S (S (rd_ops r))) + i)%nat with (rd_ops r + 3 + i)%nat by lia. exact Hf. }
  rewrite E3 in H. inversion H. auto.
Qed.

(** ** bzImage *)
Lemma seek_end_at r : seek_end r = if rd_fault r Seeking (rd_ops r) then (rd_step r (rd_pos r), None) else (rd_step r (rd_len r), Some (rd_len r)).
Proof. reflexivity. Qed.
Lemma seek_start_at r p : p <= rd_maxpos r ->
  seek_start r p = if rd_fault r Seeking (rd_ops r) then (rd_step r (rd_pos r), None) else (rd_step r p, Some p).
Proof. intros H. unfold seek_start. rewrite (proj2 (N.ltb_ge _ _)) by lia. reflexivity. Qed.
Lemma read_header_at r : exists p o, read_header r = (rd_step r p, o) /\ (o = None <-> rd_fault r Reading (rd_ops r) = true).
Proof.
  unfold read_header, read_volatile. destruct (rd_fault r Reading (rd_ops r)); do 2 eexists; (split; [reflexivity|]); split; congruence.
Qed.

Definition bz_step_outcome (r : reader) (n : nat) (m m' : gmem) (o : outcome lerror load_result) : Prop :=
  let f := rd_fault r in
  f Seeking n = true /\ o = Err (LBz SeekBzImageEnd) /\ m' = m \/
  f Seeking n = false /\
  (f Seeking (n + 1)%nat = true /\ o = Err (LBz SeekBzImageHeader) /\ m' = m \/
   f Seeking (n + 1)%nat = false /\
   (f Reading (n + 2)%nat = true /\ o = Err (LBz ReadBzImageHeader) /\ m' = m \/
    f Reading (n + 2)%nat = false /\
    ((o = Err (LBz InvalidBzImage) \/ o = Err (LBz BzOverflow) \/ o = Err (LBz BzUnderflow) \/ o = Err InvalidKernelStartAddress) /\ m' = m \/
     f Seeking (n + 3)%nat = true /\ o = Err (LBz SeekBzImageCompressedKernel) /\ m' = m \/
     f Seeking (n + 3)%nat = false /\ (o = Err (LBz ReadBzImageCompressedKernel) \/ o = Err MemoryOverflow \/ exists res, o = Ok res)))).

Lemma bz_steps be off highmem r m r' m' o :
  wf_reader r -> 0x1f1 <= rd_maxpos r -> wf_mem m = true ->
  bz_load be off highmem r m = (r', m', o) -> bz_step_outcome r (rd_ops r) m m' o.
Proof.
  intros (_ & Hlm & _) Hmp Hw H. unfold bz_load in H. unfold bz_step_outcome. cbv zeta.
  rewrite lbind_lio, seek_end_at in H.
  destruct (rd_fault r Seeking (rd_ops r)) eqn:E0. { left. inversion H. auto. }
  right. split; [reflexivity|]. set (r1 := rd_step r (rd_len r)) in *. rewrite lbind_lio, seek_start_at in H by exact Hmp.
  assert (R1 : rd_fault r1 Seeking (rd_ops r1) = rd_fault r Seeking (rd_ops r + 1)) by (cbn; f_equal; lia).
  rewrite R1 in H. destruct (rd_fault r Seeking (rd_ops r + 1)) eqn:E1. { left. inversion H. auto. }
  right. split; [reflexivity|]. set (r2 := rd_step r1 0x1F1) in *. rewrite lbind_lio in H.
  destruct (read_header_at r2) as (p & o2 & E2 & Ho2). rewrite E2 in H.
  assert (R2 : rd_fault r2 Reading (rd_ops r2) = rd_fault r Reading (rd_ops r + 2)) by (cbn; f_equal; lia).
  rewrite R2 in Ho2. destruct o2 as [h|].
  2:{ left. split; [now apply Ho2|]. inversion H. auto. }
  right. split. { destruct (rd_fault r Reading (rd_ops r + 2)); [|reflexivity]. destruct Ho2 as [_ Ho2]. now discriminate Ho2. }
  clear E2 Ho2. set (r3 := rd_step r2 p) in *.
  destruct (negb (hdr_get "header" h =? 0x53726448)). { left. inversion H. auto. }
  destruct ((hdr_get "version" h <? 0x0200) || (N.land (hdr_get "loadflags" h) 1 =? 0)). { left. inversion H. auto. }
  destruct (match checked_add _ 1 with Some x => checked_mul x 512 | None => None end) as [ss|]; cbn [ok_or] in H.
  2:{ rewrite lbind_err in H. left. inversion H. auto. }
  rewrite lbind_ok in H. unfold checked_sub in H. destruct (N.leb_spec ss (rd_len r)) as [Hle|]; cbn [ok_or] in H.
  2:{ rewrite lbind_err in H. left. inversion H. auto 6. }
  rewrite lbind_ok in H.
  destruct (match highmem with Some hh => hdr_get "code32_start" h <? hh | None => false end). { left. inversion H. auto 6. }
  right. rewrite lbind_lio, seek_start_at in H by (change (rd_maxpos r3) with (rd_maxpos r); unfold rd_len in Hle; lia).
  assert (R3 : rd_fault r3 Seeking (rd_ops r3) = rd_fault r Seeking (rd_ops r + 3)) by (cbn; f_equal; lia).
  rewrite R3 in H. destruct (rd_fault r Seeking (rd_ops r + 3)) eqn:E3. { left. inversion H. auto. }
  right. split; [reflexivity|]. unfold lbind at 1 in H. unfold lcopy in H.
  destruct (read_exact_volatile_from _ _ _ _ _) as [[r5 m5] o5] eqn:Ec.
  pose proof (rev_frame _ _ _ _ _ _ _ _ Hw Ec) as (_ & _ & [-> | ->]).
  - destruct (checked_add _ _); cbn [ok_or] in H; [rewrite lbind_ok in H|rewrite lbind_err in H]; inversion H; eauto.
  - inversion H. auto.
Qed.

(** Which failing operation leads to which bzImage error, exactly. *)
Theorem C67_bz_steps : forall be off highmem r m m' o,
  bz_runs be off highmem r m m' o ->
  let n := rd_ops r in
  (o = Err (LBz SeekBzImageEnd) <-> rd_fault r Seeking n = true) /\
  (o = Err (LBz SeekBzImageHeader) <-> rd_fault r Seeking n = false /\ rd_fault r Seeking (n + 1) = true) /\
  (o = Err (LBz ReadBzImageHeader) <->
     rd_fault r Seeking n = false /\ rd_fault r Seeking (n + 1) = false /\ rd_fault r Reading (n + 2) = true) /\
  (o = Err (LBz SeekBzImageCompressedKernel) ->
     rd_fault r Seeking n = false /\ rd_fault r Seeking (n + 1) = false /\ rd_fault r Reading (n + 2) = false /\
     rd_fault r Seeking (n + 3) = true) /\
  (o = Err (LBz ReadBzImageCompressedKernel) ->
     rd_fault r Seeking n = false /\ rd_fault r Seeking (n + 1) = false /\ rd_fault r Reading (n + 2) = false /\
     rd_fault r Seeking (n + 3) = false) /\
  (forall e, o = Err e -> e <> LBz ReadBzImageCompressedKernel -> m' = m).
Proof.
  intros until o. intros H. pose proof (C37_bz_errors_frame _ _ _ _ _ _ _ H) as (_ & Hfr).
  destruct H as (Hwr & Hmp & Hwm & _ & r' & E). apply bz_steps in E; [|assumption|assumption|assumption]. cbv zeta in E |- *.
  assert (Hm : forall e, o = Err e -> e <> LBz ReadBzImageCompressedKernel -> m' = m).
  { intros e He Hn. destruct (Hfr e He) as [Hx|[Hx _]]; [exact Hx|contradiction]. }
  clear Hfr. destruct E as [(E0 & -> & _)|(E0 & [(E1 & -> & _)|(E1 & [(E2 & -> & _)|(E2 & [(Ho & _)|[(E3 & -> & _)|(E3 & Ho)]])])])];
    rewrite ?E0, ?E1, ?E2, ?E3 in *.
  all: try (destruct Ho as [-> |[-> |[-> | ->]]]).
  all: try (destruct Ho as [-> |[-> |[res ->]]]).
  all: split; [split; intros X; try discriminate; try (destruct X; discriminate); auto|].
  all: split; [split; intros X; try discriminate; try (destruct X; discriminate); auto|].
  all: split; [split; intros X; try discriminate; try (destruct X as (? & ? & ?); discriminate); auto|].
  all: split; [intros X; try discriminate; auto|].
  all: split; [intros X; try discriminate; auto|exact Hm].
Qed.

(** Conversely, for a good image the failing fourth operation is reported as such, and once the first
    four operations succeeded nothing but the payload copy can fail. *)
Theorem C67_bz_payload_steps : forall be off highmem r m m' o,
  bz_runs be off highmem r m m' o ->
  let f := rd_data r in
  let n := rd_ops r in
  ~ short_reads r -> bz_header_good f -> bz_setup_size f <= lenN f -> bz_highmem_ok f highmem ->
  rd_fault r Seeking n = false -> rd_fault r Seeking (n + 1) = false -> rd_fault r Reading (n + 2) = false ->
  (rd_fault r Seeking (n + 3) = true <-> o = Err (LBz SeekBzImageCompressedKernel)) /\
  (o = Err (LBz ReadBzImageCompressedKernel) -> read_trouble be r \/ ~ dest_ok be m (bz_load_addr f off) (lenN (bz_payload f))) /\
  (forall e, o = Err e -> e = LBz SeekBzImageCompressedKernel \/ e = LBz ReadBzImageCompressedKernel).
Proof.
  intros until o. intros H. cbv zeta. intros Hc Hg Hs Hh F0 F1 F2. pose proof H as H'. use_bz H.
  destruct H' as (Hwr' & Hmp' & Hwm' & _ & r1 & E). apply bz_steps in E; [|assumption|assumption|assumption]. unfold bz_step_outcome in E.
  cbv zeta in E. rewrite F0, F1, F2 in E.
  destruct E as [(X & _)|(_ & [(X & _)|(_ & [(X & _)|(_ & E)])])]; try discriminate.
  destruct Hpost as [(_ & _ & Ho)|(k & Hk & Hpost)].
  { exfalso. destruct E as [([X|[X|[X|X]]] & _)|[(_ & X & _)|(_ & [X|[X|(? & X)]])]]; rewrite X in Ho;
      intuition discriminate. }
  destruct Hk as [-> |Hk]; [|contradiction]. cbv zeta in Hpost. set (f := rd_data r) in *.
  rewrite (seen_header_good f 123), seen_setup_size in Hpost by lia.
  assert (Ela : bz_load_addr (seen f 123) off = bz_load_addr f off).
  { unfold bz_load_addr. rewrite seen_code32 by lia. reflexivity. }
  assert (Ehm : bz_highmem_ok (seen f 123) highmem <-> bz_highmem_ok f highmem).
  { unfold bz_highmem_ok. rewrite seen_code32 by lia. reflexivity. }
  rewrite Ela, Ehm in Hpost.
  destruct Hpost as [(Hb & _)|[(_ & Hl & _)|[(_ & _ & Hb & _)|(_ & _ & _ & Hpost)]]]; [contradiction|lia|contradiction|].
  assert (Hn : lenN f - bz_setup_size f = lenN (bz_payload f)) by (unfold bz_payload; rewrite part_slice, lenN_slice; lia).
  rewrite Hn in Hpost.
  destruct Hpost as [(Ht & -> & ->)|(Hso & [(-> & Hwhy)|(Hd & Hov & [(Hge & ->)|(Hlt & ->)])])].
  - split; [split; [reflexivity|]|split; [discriminate|intros e X; injection X as <-; auto]].
    intros _. destruct E as [(X & _)|[(X & _)|(_ & [X|[X|(? & X)]])]]; try assumption; try discriminate. intuition discriminate.
  - split; [split; [|discriminate]|split; [auto|intros e X; injection X as <-; auto]].
    intros F3. destruct E as [(X & _)|[(_ & X & _)|(X & _)]]; [intuition discriminate|discriminate|congruence].
  - exfalso. pose proof (dest_ok_end _ _ _ _ Hwm (load_addr_lt f _ Hoff) Hd) as Hlt. change (2 ^ 64) with two64 in Hlt. lia.
  - split; [split; [|discriminate]|split; [discriminate|discriminate]].
    intros F3. destruct E as [(X & _)|[(_ & X & _)|(X & _)]]; [intuition discriminate|discriminate|congruence].
Qed.

(** A bzImage source that fails its fourth operation. *)
Definition failing_at (f : bytes) (k : io_kind) (i : nat) : reader :=
  mkReader f 0 (2 ^ 63 - 1) (fun _ => 2 ^ 63) (fun k' j => match k, k' with Seeking, Seeking | Reading, Reading => Nat.eqb i j | _, _ => false end) 0.
Example C67_bz_applies : forall be i k e, In (i, k, e)
    [(0%nat, Seeking, SeekBzImageEnd); (1%nat, Seeking, SeekBzImageHeader); (2%nat, Reading, ReadBzImageHeader);
     (3%nat, Seeking, SeekBzImageCompressedKernel); (4%nat, Reading, ReadBzImageCompressedKernel)] ->
  exists m', bz_runs be None None (failing_at demo_bz k i) demo_mem m' (Err (LBz e)).
Proof.
  intros be i k e Hin. assert (W : forall off highmem m' o r', (forall a, off = Some a -> a < 2 ^ 64) ->
    bz_load be off highmem (failing_at demo_bz k i) demo_mem = (r', m', o) -> exists m', bz_runs be off highmem (failing_at demo_bz k i) demo_mem m' o).
  { intros off hm m' o r' H2 H3. exists m'. split; [split; [reflexivity|split; [vm_compute; discriminate|reflexivity]]|]. split; [vm_compute; discriminate|]. split; [reflexivity|]. split; [exact H2|eauto]. }
  cbn in Hin. destruct Hin as [X|[X|[X|[X|[X|[]]]]]]; injection X as <- <- <-; destruct be; (eapply W; [discriminate|]); vm_compute; reflexivity.
Qed.

(** ** PE images *)
Theorem C67_pe_steps : forall a be off highmem r m m' o,
  pe_runs a be off highmem r m m' o ->
  let f := rd_data r in
  let n := rd_ops r in
  (o = Err (LPe SeekImageEnd) <-> rd_fault r Seeking n = true) /\
  (o = Err (LPe SeekImageHeader) <->
     rd_fault r Seeking n = false /\
     (rd_fault r Seeking (n + 1) = true \/
      rd_fault r Seeking (n + 1) = false /\ rd_fault r Reading (n + 2) = false /\ pe_good a f off /\ rd_fault r Seeking (n + 3) = true)) /\
  (o = Err (LPe ReadImageHeader) <->
     rd_fault r Seeking n = false /\ rd_fault r Seeking (n + 1) = false /\ (rd_fault r Reading (n + 2) = true \/ lenN f < 64)) /\
  (o = Err (LPe PeReadKernelImage) ->
     rd_fault r Seeking n = false /\ rd_fault r Seeking (n + 1) = false /\ rd_fault r Reading (n + 2) = false /\ rd_fault r Seeking (n + 3) = false /\
     pe_good a f off /\ (read_trouble be r \/ ~ range_backed m (pe_load_addr a f off) (lenN f))) /\
  (forall e, o = Err e -> e <> LPe PeReadKernelImage -> m' = m).
Proof.
  intros until o. intros ((Hl63 & Hlm & Hm64) & Hw & r' & H). cbv zeta. unfold pe_load in H. set (f := rd_data r) in *.
  rewrite lbind_lio, seek_end_at in H.
  destruct (rd_fault r Seeking (rd_ops r)) eqn:E0.
  { inversion H. repeat (split; [split; intros X; try discriminate; try (destruct X; discriminate); auto|]). split; [discriminate|]. auto. }
  set (r1 := rd_step r (rd_len r)) in *. rewrite lbind_lio, seek_start_at in H by lia.
  assert (R1 : rd_fault r1 Seeking (rd_ops r1) = rd_fault r Seeking (rd_ops r + 1)) by (cbn; f_equal; lia).
  rewrite R1 in H. destruct (rd_fault r Seeking (rd_ops r + 1)) eqn:E1.
  { inversion H. split; [split; discriminate|]. split; [split; auto|]. split; [split; [discriminate|intros (? & ? & _); discriminate]|]. split; [discriminate|]. auto. }
  set (r2 := rd_step r1 0) in *. rewrite lbind_lio in H. assert (Esz : size (image_header a) = 64) by (destruct a; reflexivity). rewrite Esz in H.
  assert (R2 : rd_fault r2 Reading (rd_ops r2) = rd_fault r Reading (rd_ops r + 2)) by (cbn; f_equal; lia).
  unfold read_exact in H. rewrite R2 in H. change (rd_pos r2) with 0 in H. change (rd_len r2) with (lenN f) in H. change (rd_data r2) with f in H.
  destruct (rd_fault r Reading (rd_ops r + 2)) eqn:E2.
  { inversion H. split; [split; discriminate|]. split; [split; [discriminate|intros (_ & [X|(_ & X & _)]); discriminate]|]. split; [split; auto|]. split; [discriminate|]. auto. }
  change (0 + 64) with 64 in H.
  destruct (N.ltb_spec (lenN f) 64) as [Hlt|Hlen].
  { inversion H. split; [split; discriminate|]. split; [split; [discriminate|intros (_ & [X|(_ & _ & (G & _) & _)]); [discriminate|lia]]|].
    split; [split; auto|]. split; [discriminate|]. auto. }
  set (r3 := rd_step r2 64) in *.
  assert (Hplain : forall e rr mm, (rr, mm, @Err lerror load_result (LPe e)) = (r', m', o) -> mm = m -> ~ pe_good a f off ->
    e = InvalidImageMagicNumber \/ e = InvalidBaseAddrAlignment \/ e = InvalidImage ->
    (o = Err (LPe SeekImageEnd) <-> false = true) /\
    (o = Err (LPe SeekImageHeader) <-> false = false /\ (false = true \/ false = false /\ false = false /\ pe_good a f off /\ rd_fault r Seeking (rd_ops r + 3) = true)) /\
    (o = Err (LPe ReadImageHeader) <-> false = false /\ false = false /\ (false = true \/ lenN f < 64)) /\
    (o = Err (LPe PeReadKernelImage) -> false = false /\ false = false /\ false = false /\ rd_fault r Seeking (rd_ops r + 3) = false /\
       pe_good a f off /\ (read_trouble be r \/ ~ range_backed m (pe_load_addr a f off) (lenN f))) /\
    (forall e, o = Err e -> e <> LPe PeReadKernelImage -> m' = m)).
  { intros e rr mm X -> Hng He. inversion X; subst m' o.
    split; [split; intros Y; [destruct He as [-> |[-> | ->]]; discriminate|discriminate]|].
    split; [split; intros Y; [destruct He as [-> |[-> | ->]]; discriminate|destruct Y as (_ & [Y|(_ & _ & Y & _)]); [discriminate|contradiction]]|].
    split; [split; intros Y; [destruct He as [-> |[-> | ->]]; discriminate|destruct Y as (_ & _ & [Y|Y]); [discriminate|lia]]|].
    split; [intros Y; destruct He as [-> |[-> | ->]]; discriminate|]. auto. }
  destruct (magic_ok a (slice f 0 64)) eqn:Em; cbn [negb] in H.
  2:{ eapply Hplain; [exact H|reflexivity| |auto]. intros (_ & G & _). apply (magic_ok_spec f Hlen a) in G. congruence. }
  apply magic_ok_spec in Em; [|assumption]. rewrite (text_offset_spec f Hlen a) in H. fold (pe_base off) in H.
  assert (Ha : (match off with Some k => negb (k mod 0x200000 =? 0) | None => false end = true /\ pe_base off mod (2 * 1024 * 1024) <> 0) \/
               (match off with Some k => negb (k mod 0x200000 =? 0) | None => false end = false /\ pe_base off mod (2 * 1024 * 1024) = 0)).
  { change (2 * 1024 * 1024) with 0x200000. destruct off as [k|]; cbn [pe_base]; [|right; auto].
    destruct (N.eqb_spec (k mod 0x200000) 0); cbn; [right|left]; auto. }
  destruct Ha as [[Ea Ha]|[Ea Ha]]; rewrite Ea in H.
  { eapply Hplain; [exact H|reflexivity| |auto]. intros (_ & _ & G & _). contradiction. }
  unfold checked_add in H at 1. fold (pe_load_addr a f off) in H.
  destruct (N.ltb_spec (pe_load_addr a f off) two64) as [Hlt|Hge]; cbn [ok_or] in H.
  2:{ rewrite lbind_err in H. eapply Hplain; [exact H|reflexivity| |auto]. intros (_ & _ & _ & G). change (2 ^ 64) with two64 in G. lia. }
  rewrite lbind_ok in H. assert (Hgood : pe_good a f off) by (unfold pe_good; auto).
  rewrite lbind_lio, seek_start_at in H by lia.
  assert (R3 : rd_fault r3 Seeking (rd_ops r3) = rd_fault r Seeking (rd_ops r + 3)) by (cbn; f_equal; lia).
  rewrite R3 in H. clear Hplain. destruct (rd_fault r Seeking (rd_ops r + 3)) eqn:E3.
  { inversion H. split; [split; discriminate|]. split; [split; auto 7|]. split; [split; [discriminate|intros (_ & _ & [X|X]); [discriminate|lia]]|]. split; [discriminate|]. auto. }
  set (r4 := rd_step r3 0) in *. unfold lbind at 1 in H. unfold lcopy in H. unfold rd_len in H. fold f in H.
  destruct (read_exact_volatile_from be r4 m (pe_load_addr a f off) (lenN f)) as [[r5 m5] o5] eqn:Ec.
  assert (Ed4 : rd_data r4 = f) by reflexivity.
  apply copy_any in Ec; [|exact Hw|rewrite Ed4; change (rd_pos r4) with 0; lia].
  destruct Ec as (Henv5 & Hfr & Hpost).
  assert (Hdr : dest_ok be m (pe_load_addr a f off) (lenN f) <-> range_backed m (pe_load_addr a f off) (lenN f)).
  { split; [intros [? _]; assumption|]. intros; split; [assumption|lia]. }
  destruct Hpost as [(-> & Hd & Hput)|(-> & Hwhy)].
  - apply Hdr in Hd. rewrite checked_add_lt in H by (apply (range_backed_bound m); [exact Hw|lia|exact Hd]).
    cbn [ok_or] in H. rewrite lbind_ok in H. unfold lret in H. inversion H; subst r5 m5 o.
    split; [split; discriminate|]. split; [split; [discriminate|intros (_ & [X|(_ & _ & _ & X)]); discriminate]|].
    split; [split; [discriminate|intros (_ & _ & [X|X]); [discriminate|lia]]|]. split; discriminate.
  - inversion H; subst r5 m5 o.
    split; [split; discriminate|]. split; [split; [discriminate|intros (_ & [X|(_ & _ & _ & X)]); discriminate]|].
    split; [split; [discriminate|intros (_ & _ & [X|X]); [discriminate|lia]]|]. split; [|intros e X; injection X as <-; contradiction].
    intros _. do 4 (split; [reflexivity|]). split; [exact Hgood|]. rewrite Hdr in Hwhy. exact Hwhy.
Qed.

(** ** load_dtb *)
Theorem C67_dtb_steps : forall be addr r m m' o,
  dtb_runs be addr r m m' o ->
  let f := rd_data r in
  let n := rd_ops r in
  (o = Err (LPe SeekDtbEnd) <-> rd_fault r Seeking n = true) /\
  (o = Err (LPe SeekDtbStart) <-> rd_fault r Seeking n = false /\ lenN f <= 2 * 1024 * 1024 /\ rd_fault r Seeking (n + 1) = true) /\
  (o = Err (LPe ReadDtbImage) -> rd_fault r Seeking n = false /\ rd_fault r Seeking (n + 1) = false /\ lenN f <= 2 * 1024 * 1024 /\
     (read_trouble be r \/ ~ dest_ok be m addr (lenN f))) /\
  (forall e, o = Err e -> e = LPe SeekDtbEnd \/ e = LPe SeekDtbStart \/ e = LPe DtbTooBig \/ e = LPe ReadDtbImage) /\
  (forall e, o = Err e -> e <> LPe ReadDtbImage -> m' = m).
Proof.
  intros until o. intros ((Hl63 & Hlm & Hm64) & Hw & r' & H). cbv zeta. unfold load_dtb in H. set (f := rd_data r) in *.
  rewrite lbind_lio, seek_end_at in H.
  destruct (rd_fault r Seeking (rd_ops r)) eqn:E0.
  { inversion H. split; [split; auto|]. split; [split; [discriminate|intros (? & _); discriminate]|]. split; [discriminate|].
    split; [intros e X; injection X as <-; auto|auto]. }
  set (r1 := rd_step r (rd_len r)) in *. unfold rd_len in H. fold f in H. change 0x200000 with (2 * 1024 * 1024) in H.
  destruct (N.ltb_spec (2 * 1024 * 1024) (lenN f)) as [Hbig|Hsm].
  { inversion H. split; [split; discriminate|]. split; [split; [discriminate|intros (_ & ? & _); lia]|]. split; [discriminate|].
    split; [intros e X; injection X as <-; auto|auto]. }
  rewrite lbind_lio, seek_start_at in H by lia.
  assert (R1 : rd_fault r1 Seeking (rd_ops r1) = rd_fault r Seeking (rd_ops r + 1)) by (cbn; f_equal; lia).
  rewrite R1 in H. destruct (rd_fault r Seeking (rd_ops r + 1)) eqn:E1.
  { inversion H. split; [split; discriminate|]. split; [split; auto|]. split; [discriminate|].
    split; [intros e X; injection X as <-; auto|auto]. }
  set (r2 := rd_step r1 0) in *. unfold lcopy in H. destruct (read_exact_volatile_from be r2 m addr (lenN f)) as [[r5 m5] o5] eqn:Ec.
  assert (Ed2 : rd_data r2 = f) by reflexivity.
  apply copy_any in Ec; [|exact Hw|rewrite Ed2; change (rd_pos r2) with 0; lia].
  destruct Ec as (Henv5 & Hfr & Hpost).
  destruct Hpost as [(-> & Hd & Hput)|(-> & Hwhy)]; inversion H; subst r5 m5 o.
  - split; [split; discriminate|]. split; [split; [discriminate|intros (_ & _ & X); discriminate]|]. split; [discriminate|]. split; discriminate.
  - split; [split; discriminate|]. split; [split; [discriminate|intros (_ & _ & X); discriminate]|].
    split; [intros _; do 3 (split; [auto|]); exact Hwhy|]. split; [intros e X; injection X as <-; auto|intros e X; injection X as <-; contradiction].
Qed.

Example C67_pe_applies : forall a be i k e, In (i, k, e)
    [(0%nat, Seeking, SeekImageEnd); (1%nat, Seeking, SeekImageHeader); (2%nat, Reading, ReadImageHeader);
     (3%nat, Seeking, SeekImageHeader); (4%nat, Reading, PeReadKernelImage)] ->
  exists m', pe_runs a be (Some 0x200000) None (failing_at (demo_pe a 0x80 4096) k i) pe_mem m' (Err (LPe e)).
Proof.
  intros a be i k e Hin. assert (W : forall off highmem m' o r',
    pe_load a be off highmem (failing_at (demo_pe a 0x80 4096) k i) pe_mem = (r', m', o) -> exists m', pe_runs a be off highmem (failing_at (demo_pe a 0x80 4096) k i) pe_mem m' o).
  { intros off hm m' o r' H3. exists m'. split; [split; [destruct a; reflexivity|split; [destruct a; vm_compute; discriminate|reflexivity]]|]. split; [reflexivity|eauto]. }
  cbn in Hin. destruct Hin as [X|[X|[X|[X|[X|[]]]]]]; injection X as <- <- <-; destruct be, a; eapply W; vm_compute; reflexivity.
Qed.
Example C67_dtb_applies : forall be i k e, In (i, k, e)
    [(0%nat, Seeking, SeekDtbEnd); (1%nat, Seeking, SeekDtbStart); (2%nat, Reading, ReadDtbImage)] ->
  exists m', dtb_runs be 0x200000 (failing_at [x01; x02; x03] k i) pe_mem m' (Err (LPe e)).
Proof.
  intros be i k e Hin. assert (W : forall addr m' o r',
    load_dtb be addr (failing_at [x01; x02; x03] k i) pe_mem = (r', m', o) -> exists m', dtb_runs be addr (failing_at [x01; x02; x03] k i) pe_mem m' o).
  { intros addr m' o r' H3. exists m'. split; [split; [reflexivity|split; [vm_compute; discriminate|reflexivity]]|]. split; [reflexivity|eauto]. }
  cbn in Hin. destruct Hin as [X|[X|[X|[]]]]; injection X as <- <- <-; destruct be; eapply W; vm_compute; reflexivity.
Qed.

Example C67_elf_applies : forall bld be i k e, In (i, k, e)
    [(0%nat, Seeking, SeekElfStart); (1%nat, Reading, ReadElfHeader); (2%nat, Seeking, SeekProgramHeader); (6%nat, Reading, ReadProgramHeader);
     (7%nat, Seeking, SeekKernelStart); (10%nat, Reading, ReadKernelImage); (11%nat, Seeking, SeekNoteHeader); (12%nat, Reading, ReadNoteHeader)] ->
  exists m', runs bld be None None (failing_at demo_elf k i) demo_mem m' (Err (LElf e)).
Proof.
  intros bld be i k e Hin. assert (W : forall off highmem m' o r',
    elf_load bld be off highmem (failing_at demo_elf k i) demo_mem = (r', m', o) -> exists m', runs bld be off highmem (failing_at demo_elf k i) demo_mem m' o).
  { intros off hm m' o r' H3. exists m'. split; [split; [reflexivity|split; [vm_compute; discriminate|reflexivity]]|]. split; [reflexivity|eauto]. }
  cbn in Hin. destruct Hin as [X|[X|[X|[X|[X|[X|[X|[X|[]]]]]]]]]; injection X as <- <- <-; destruct be, bld; eapply W; vm_compute; reflexivity.
Qed.
