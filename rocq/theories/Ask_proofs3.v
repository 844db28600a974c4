(** What conversations lead the ELF loader to. *)
From Verif Require Import Base Base_proofs Io Mem SpecMem Mem_proofs Layout SpecFile File_proofs Text Cmdline Loader Elf SpecElf
  Align_proofs Elf_proofs Elf_proofs2 Source SpecTalk Talk_proofs Props_Talk2 BootParams Ask SpecAsk Ask_proofs Ask_proofs2.
Local Open Scope list_scope.
Local Open Scope ask_scope.

Tactic Notation "fair_split" hyp(H) "as" ident(F) ident(R) := inversion H as [|? ? F R]; subst; cbn [fair] in F; clear H.

Lemma path_assoc {E A B C} (x : prog E A) (f : A -> prog E B) (g : B -> prog E C) : forall l o,
  path (pbind (pbind x f) g) l o <-> path (pbind x (fun a => pbind (f a) g)) l o.
Proof.
  induction x as [o0|k IH|x k IH|x k IH|x k IH|x k IH|a n k IH|a n k IH|bs a k IH|k IH]; intros l o.
  { destruct o0; reflexivity. }
  all: destruct l as [|[[y|y z|y z|y z|y z|y z]|b m z|b m z|bs' b z|z] r]; cbn; try tauto; rewrite ?IH; tauto.
Qed.

Definition note_end (bld : build) (phdr : bytes) (res : N * bytes) : prog lerror pvh_cap :=
  let read_size := fst res in
  let nhdr := snd res in
  if phdr_get "p_filesz" phdr <=? read_size then Done (Ok PvhEntryNotPresent)
  else
    namesz_aligned <~ Done (align_up bld (nhdr_get "n_namesz" nhdr) ELFNOTE_ALIGN) ;;
    seek_by (Z.of_N namesz_aligned - Z.of_N PVH_NOTE_STR_SZ)%Z (LElf SeekNoteHeader) ;;~
    if nhdr_get "n_descsz" nhdr <? 4 then Done (Err (LElf InvalidPvhNote))
    else
      pvh_addr_bytes <~ read_all 4 (LElf ReadNoteHeader) ;;
      Done (Ok (PvhEntryPresent (le_dec pvh_addr_bytes))).

Lemma entry_path bld phdr rs h l o : rs < phdr_get "p_filesz" phdr -> lenN h = 12 -> u32at h 0 = 4 -> Forall fair l ->
  (path (note_end bld phdr (rs, h)) l o <-> exists evs, l = map Img evs /\ entry_talk h evs o).
Proof.
  intros Hrs Hl H0 HF. unfold note_end. cbv zeta. cbn [fst snd]. rewrite (proj2 (N.leb_gt _ _) Hrs).
  destruct (n_fields h Hl) as (F1 & F2 & _). rewrite F1, F2, H0.
  unfold ELFNOTE_ALIGN, PVH_NOTE_STR_SZ. rewrite align_up4 by reflexivity. cbn [pbind].
  change (Z.of_N (pad4 4) - Z.of_N 4)%Z with 0%Z. rewrite path_by. split.
  - intros [(-> & ->)|(q & r & -> & H)].
    { exists [SoughtBy 0 None]. split; [reflexivity|constructor]. }
    destruct (N.ltb_spec (u32at h 4) 4) as [Hd|Hd].
    { apply path_done in H as (-> & ->). exists [SoughtBy 0 (Some q)]. split; [reflexivity|now constructor]. }
    apply path_all in H as [(-> & ->)|(d & r2 & -> & H)].
    { exists [SoughtBy 0 (Some q); ReadAll 4 None]. split; [reflexivity|now constructor]. }
    fair_split HF as G1 HF2. fair_split HF2 as G2 HF3. apply path_done in H as (-> & ->).
    exists [SoughtBy 0 (Some q); ReadAll 4 (Some d)]. split; [reflexivity|].
    replace (le_dec d) with (u32at d 0) by (rewrite <- le_dec_slice4, (slice_whole d 4 G2); reflexivity). now constructor.
  - intros (evs & -> & K). inversion K as [ |q Hd|q Hd|q d Hd Hld]; subst.
    + left. auto.
    + right. exists q, []. split; [reflexivity|]. rewrite (proj2 (N.ltb_lt _ _) Hd). now apply path_done.
    + right. exists q. eexists. split; [reflexivity|]. rewrite (proj2 (N.ltb_ge _ _) Hd). apply path_all. auto.
    + right. exists q. eexists. split; [reflexivity|]. rewrite (proj2 (N.ltb_ge _ _) Hd). apply path_all. right. exists d, []. split; [reflexivity|].
      apply path_done. split; [reflexivity|]. rewrite <- le_dec_slice4, (slice_whole d 4 Hld). reflexivity.
Qed.

(** Going on after a note that is not the one. *)
Definition note_skip (bld : build) (fuel : nat) (phdr : bytes) (rs : N) (nhdr : bytes) : prog lerror (N * bytes) :=
  namesz_aligned <~ Done (align_up bld (nhdr_get "n_namesz" nhdr) ELFNOTE_ALIGN) ;;
  descsz_aligned <~ Done (align_up bld (nhdr_get "n_descsz" nhdr) ELFNOTE_ALIGN) ;;
  if (u32_max <? namesz_aligned) || (u32_max <? descsz_aligned) then Done (Err (LElf ElfOverflow))
  else
    read_size <~ Done
      (ok_or (match checked_add rs (size Elf64_Nhdr) with
              | Some x => match checked_add x namesz_aligned with
                          | Some y => checked_add y descsz_aligned
                          | None => None
                          end
              | None => None
              end) (LElf ElfOverflow)) ;;
    target <~ Done (uadd bld (phdr_get "p_offset" phdr) read_size) ;;
    seek_to target (LElf SeekNoteHeader) ;;~
    note_prog bld fuel phdr read_size nhdr.
Definition over (rs : N) (h : bytes) : Prop := 2 ^ 32 <= pad4 (u32at h 0) \/ 2 ^ 32 <= pad4 (u32at h 4) \/ 2 ^ 64 <= rs + note_len h.
Definition on_way (bld : build) (start rs : N) (h : bytes) : Prop :=
  pads_fit h /\ rs + note_len h < 2 ^ 64 /\ (bld = true -> start + (rs + note_len h) < 2 ^ 64).
Lemma note_skip_cases bld fuel phdr rs h : lenN h = 12 ->
  let start := phdr_get "p_offset" phdr in
  (over rs h /\ note_skip bld fuel phdr rs h = Done (Err (LElf ElfOverflow))) \/
  (pads_fit h /\ rs + note_len h < 2 ^ 64 /\ bld = true /\ 2 ^ 64 <= start + (rs + note_len h) /\
    note_skip bld fuel phdr rs h = Done (Panic ArithOverflow)) \/
  (on_way bld start rs h /\
   note_skip bld fuel phdr rs h =
    (seek_to ((start + (rs + note_len h)) mod 2 ^ 64) (LElf SeekNoteHeader) ;;~ note_prog bld fuel phdr (rs + note_len h) h)).
Proof.
  intros Hl start. unfold note_skip. destruct (n_fields h Hl) as (F1 & F2 & _). rewrite F1, F2.
  unfold ELFNOTE_ALIGN. rewrite !align_up4 by apply u32at_lt. cbn [pbind]. change (size Elf64_Nhdr) with 12.
  pose proof (pad4_spec (u32at h 0)) as (Hq1 & _). pose proof (pad4_spec (u32at h 4)) as (Hq2 & _).
  destruct (N.ltb_spec u32_max (pad4 (u32at h 0))) as [Ho1|Ho1]; cbn [orb].
  { left. split; [|reflexivity]. left. change (2 ^ 32) with 4294967296. unfold u32_max in Ho1. lia. }
  destruct (N.ltb_spec u32_max (pad4 (u32at h 4))) as [Ho2|Ho2].
  { left. split; [|reflexivity]. right. left. change (2 ^ 32) with 4294967296. unfold u32_max in Ho2. lia. }
  assert (Hpf : pads_fit h).
  { unfold pads_fit. change (2 ^ 32) with 4294967296. unfold u32_max in *. lia. }
  clear Ho1 Ho2.
  assert (Hsum : match checked_add rs 12 with
                 | Some x => match checked_add x (pad4 (u32at h 0)) with Some y => checked_add y (pad4 (u32at h 4)) | None => None end
                 | None => None
                 end = checked_add rs (note_len h)).
  { unfold checked_add, note_len. destruct (N.ltb_spec (rs + 12) two64).
    - destruct (N.ltb_spec (rs + 12 + pad4 (u32at h 0)) two64).
      + rewrite !N.add_assoc. reflexivity.
      + symmetry. rewrite (proj2 (N.ltb_ge _ _)) by lia. reflexivity.
    - symmetry. rewrite (proj2 (N.ltb_ge _ _)) by lia. reflexivity. }
  rewrite Hsum, checked_end. destruct (N.ltb_spec (rs + note_len h) two64) as [Hr2|Hr2]; cbn [pbind].
  2:{ left. split; [|reflexivity]. right. right. exact Hr2. }
  unfold uadd. fold start. destruct (N.ltb_spec (start + (rs + note_len h)) two64) as [Hs|Hs].
  - right. right. split; [split; [exact Hpf|split; [exact Hr2|intros _; exact Hs]]|]. cbn [pbind]. rewrite N.mod_small by exact Hs. reflexivity.
  - destruct bld.
    + right. left. split; [exact Hpf|]. split; [exact Hr2|]. split; [reflexivity|]. split; [exact Hs|reflexivity].
    + right. right. split; [split; [exact Hpf|split; [exact Hr2|discriminate]]|reflexivity].
Qed.

(** One round. *)
Lemma note_round bld fuel phdr rs nh (f : N * bytes -> prog lerror pvh_cap) l o : rs < phdr_get "p_filesz" phdr -> Forall fair l ->
  (path (pbind (note_prog bld (S fuel) phdr rs nh) f) l o <->
   (l = [Img (ReadAll 12 None)] /\ o = Err (LElf ReadNoteHeader)) \/
   (exists h, lenN h = 12 /\
     ((u32at h 8 = 18 /\ u32at h 0 = 4 /\ l = [Img (ReadAll 12 (Some h)); Img (ReadAll 4 None)] /\ o = Err (LElf ReadNoteHeader)) \/
      (exists r, u32at h 8 = 18 /\ u32at h 0 = 4 /\ l = Img (ReadAll 12 (Some h)) :: Img (ReadAll 4 (Some [x58; x65; x6e; x00])) :: r /\ path (f (rs, h)) r o) \/
      (exists name r, other_note h name /\ l = Img (ReadAll 12 (Some h)) :: map Img name ++ r /\ path (pbind (note_skip bld fuel phdr rs h) f) r o)))).
Proof.
  intros Hlt HF. cbn [note_prog]. rewrite (proj2 (N.ltb_lt _ _) Hlt). cbn [negb]. change (size Elf64_Nhdr) with 12.
  rewrite path_assoc, path_all. apply or_iff_compat_l. split.
  - intros (h & r & -> & H). fair_split HF as Hl HF2. exists h. split; [exact Hl|].
    destruct (n_fields h Hl) as (F1 & F2 & F3). rewrite F1, F3 in H at 1. unfold XEN_ELFNOTE_PHYS32_ENTRY, PVH_NOTE_STR_SZ in H.
    assert (Hskip : forall name, other_note h name -> forall r', r = map Img name ++ r' -> path (pbind (note_skip bld fuel phdr rs h) f) r' o ->
      exists name r0, other_note h name /\ Img (ReadAll 12 (Some h)) :: r = Img (ReadAll 12 (Some h)) :: map Img name ++ r0 /\ path (pbind (note_skip bld fuel phdr rs h) f) r0 o).
    { intros name On r' -> P. exists name, r'. auto. }
    destruct (N.eqb_spec (u32at h 8) 18) as [Ht|Ht]; cbn [andb] in H.
    2:{ right. right. apply (Hskip []) with (r' := r); [apply on_plain; [exact Hl|intros [? _]; contradiction]|reflexivity|exact H]. }
    destruct (N.eqb_spec (u32at h 0) 4) as [Hs|Hs].
    2:{ right. right. apply (Hskip []) with (r' := r); [apply on_plain; [exact Hl|intros [_ ?]; contradiction]|reflexivity|exact H]. }
    rewrite !path_assoc in H. apply path_all in H as [(-> & ->)|(nm & r2 & -> & H)]; [left; auto|].
    fair_split HF2 as Hn HF3. cbn [pbind] in H. destruct (is_xen nm) eqn:Ex.
    + apply is_xen_iff in Ex as ->. cbn [pbind] in H. right. left. eauto.
    + apply is_xen_false in Ex. right. right. apply (Hskip [ReadAll 4 (Some nm)]) with (r' := r2); [now apply on_named|reflexivity|exact H].
  - intros (h & Hl & K). destruct (n_fields h Hl) as (F1 & F2 & F3). unfold XEN_ELFNOTE_PHYS32_ENTRY, PVH_NOTE_STR_SZ.
    destruct K as [(Ht & Hs & -> & ->)|[(r & Ht & Hs & -> & H)|(name & r & On & -> & H)]]; exists h; eexists; (split; [reflexivity|]); rewrite F1, F3 at 1.
    + rewrite Ht, Hs, !N.eqb_refl. cbn [andb]. rewrite !path_assoc. apply path_all. auto.
    + rewrite Ht, Hs, !N.eqb_refl. cbn [andb]. rewrite !path_assoc. apply path_all. right. eexists _, r. split; [reflexivity|].
      cbn [pbind]. rewrite (proj2 (is_xen_iff _) eq_refl). exact H.
    + inversion On as [_ Hno|nm _ Ht Hs Hnm Hne]; subst; cbn [map app].
      * destruct (N.eqb_spec (u32at h 8) 18) as [Ht|Ht]; cbn [andb]; [|exact H].
        destruct (N.eqb_spec (u32at h 0) 4) as [Hs|Hs]; [exfalso; auto|exact H].
      * rewrite Ht, Hs, !N.eqb_refl. cbn [andb]. rewrite !path_assoc. apply path_all. right. eexists _, r. split; [reflexivity|].
        cbn [pbind]. assert (Ex : is_xen nm = false).
        { destruct (is_xen nm) eqn:E; [apply is_xen_iff in E; contradiction|reflexivity]. }
        rewrite Ex. exact H.
Qed.

Lemma note_done bld fuel phdr rs nh (f : N * bytes -> prog lerror pvh_cap) : phdr_get "p_filesz" phdr <= rs ->
  pbind (note_prog bld (S fuel) phdr rs nh) f = f (rs, nh).
Proof. intros H. cbn [note_prog]. rewrite (proj2 (N.ltb_ge _ _) H). reflexivity. Qed.

Lemma note_len_12 h : 12 <= note_len h.
Proof. unfold note_len. lia. Qed.

Lemma note_path bld phdr : forall fuel rs nh l o, phdr_get "p_filesz" phdr <= rs + 12 * N.of_nat fuel -> Forall fair l ->
  (path (pbind (note_prog bld (S fuel) phdr rs nh) (note_end bld phdr)) l o <->
   exists evs, l = map Img evs /\ notes_talk bld (phdr_get "p_offset" phdr) (phdr_get "p_filesz" phdr) rs evs o).
Proof.
  induction fuel as [|fuel IH]; intros rs nh l o Hf HF.
  { assert (Hle : phdr_get "p_filesz" phdr <= rs) by lia. rewrite note_done by exact Hle. unfold note_end. cbv zeta. cbn [fst].
    rewrite (proj2 (N.leb_le _ _) Hle), path_done. split.
    - intros (-> & ->). exists []. split; [reflexivity|now apply nk_end].
    - intros (evs & -> & K). inversion K; subst; try lia. auto. }
  destruct (N.ltb_spec rs (phdr_get "p_filesz" phdr)) as [Hlt|Hle].
  2:{ rewrite note_done by exact Hle. unfold note_end. cbv zeta. cbn [fst].
    rewrite (proj2 (N.leb_le _ _) Hle), path_done. split.
    - intros (-> & ->). exists []. split; [reflexivity|now apply nk_end].
    - intros (evs & -> & K). inversion K; subst; try lia. auto. }
  assert (IH' : forall h nh l o, Forall fair l ->
    (path (pbind (note_prog bld (S fuel) phdr (rs + note_len h) nh) (note_end bld phdr)) l o <->
     exists evs, l = map Img evs /\ notes_talk bld (phdr_get "p_offset" phdr) (phdr_get "p_filesz" phdr) (rs + note_len h) evs o)).
  { intros h nh' l' o' HF'. apply IH; [|exact HF']. pose proof (note_len_12 h). lia. }
  clear IH. set (start := phdr_get "p_offset" phdr) in *. set (fsz := phdr_get "p_filesz" phdr) in *.
  rewrite note_round by assumption. split.
  - intros [(-> & ->)|(h & Hl & [(Ht & Hs & -> & ->)|[(r & Ht & Hs & -> & H)|(name & r & On & -> & H)]])].
    + exists [ReadAll 12 None]. split; [reflexivity|]. now apply nk_no_header.
    + exists [ReadAll 12 (Some h); ReadAll 4 None]. split; [reflexivity|]. now apply nk_no_name.
    + fair_split HF as G1 HF2. fair_split HF2 as G2 HF3. apply entry_path in H as (evs & -> & K); try assumption.
      exists (ReadAll 12 (Some h) :: ReadAll 4 (Some [x58; x65; x6e; x00]) :: evs). split; [reflexivity|]. now apply nk_found.
    + fair_split HF as G1 HF2. apply Forall_app in HF2 as (_ & HF3).
      destruct (note_skip_cases bld (S fuel) phdr rs h Hl) as [(Ho & Es)|[(Hp & Hr & Hb & Ho & Es)|((Hp & Hr & Ho) & Es)]]; rewrite Es in H.
      * apply path_done in H as (-> & ->). exists (ReadAll 12 (Some h) :: name). split; [now rewrite app_nil_r|]. now apply nk_over.
      * apply path_done in H as (-> & ->). exists (ReadAll 12 (Some h) :: name). split; [now rewrite app_nil_r|]. now apply nk_panic.
      * rewrite path_assoc, path_to in H. fold start in H, Ho. destruct H as [(-> & ->)|(q & r2 & -> & H)].
        { exists (ReadAll 12 (Some h) :: name ++ [SoughtTo ((start + (rs + note_len h)) mod 2 ^ 64) None]).
          split; [cbn [map]; now rewrite map_app|]. now apply nk_no_next. }
        fair_split HF3 as G3 HF4. apply IH' in H as (evs & -> & K); [|exact HF4].
        exists (ReadAll 12 (Some h) :: name ++ SoughtTo ((start + (rs + note_len h)) mod 2 ^ 64) (Some q) :: evs).
        split; [cbn [map]; now rewrite map_app|]. now apply nk_next.
  - intros (evs & -> & K).
    inversion K as [rs' Hx|rs' Hx|rs' h Hx Hl Ht Hs|rs' h tail o' Hx Hl Ht Hs Ke|rs' h name Hx On Ho|rs' h name Hx On Hp Hr Hb Ho|rs' h name Hx On Hp Hr Ho|rs' h name q evs' o' Hx On Hp Hr Ho Kn]; subst.
    + lia.
    + left. auto.
    + right. exists h. split; [exact Hl|]. left. auto.
    + right. exists h. split; [exact Hl|]. right. left. exists (map Img tail). split; [exact Ht|]. split; [exact Hs|]. split; [reflexivity|].
      fair_split HF as G1 HF2. fair_split HF2 as G2 HF3. apply entry_path; try assumption. eauto.
    + assert (Hl : lenN h = 12) by now inversion On.
      right. exists h. split; [exact Hl|]. right. right. exists name, []. split; [exact On|]. split; [now rewrite app_nil_r|].
      destruct (note_skip_cases bld (S fuel) phdr rs h Hl) as [(_ & Es)|[(Hp & Hr & _)|((Hp & Hr & _) & _)]]; [rewrite Es; now apply path_done|exfalso..];
        unfold pads_fit in Hp; destruct Ho as [Ho|[Ho|Ho]]; lia.
    + assert (Hl : lenN h = 12) by now inversion On.
      right. exists h. split; [exact Hl|]. right. right. exists name, []. split; [exact On|]. split; [now rewrite app_nil_r|].
      destruct (note_skip_cases true (S fuel) phdr rs h Hl) as [([Ho'|[Ho'|Ho']] & Es)|[(_ & _ & _ & _ & Es)|((_ & _ & Ho') & _)]].
      1-3: exfalso; unfold pads_fit in Hp; lia.
      { rewrite Es; now apply path_done. }
      specialize (Ho' eq_refl). fold start in Ho'. lia.
    + assert (Hl : lenN h = 12) by now inversion On.
      right. exists h. split; [exact Hl|]. right. right. exists name. eexists. split; [exact On|]. split; [cbn [map]; rewrite map_app; reflexivity|].
      destruct (note_skip_cases bld (S fuel) phdr rs h Hl) as [([Ho'|[Ho'|Ho']] & Es)|[(_ & _ & Hb & Ho' & Es)|(_ & Es)]].
      1-3: exfalso; unfold pads_fit in Hp; lia.
      { specialize (Ho Hb). fold start in Ho'. lia. }
      rewrite Es, path_assoc, path_to. left. auto.
    + assert (Hl : lenN h = 12) by now inversion On.
      right. exists h. split; [exact Hl|]. right. right. exists name. eexists. split; [exact On|]. split; [cbn [map]; rewrite map_app; reflexivity|].
      destruct (note_skip_cases bld (S fuel) phdr rs h Hl) as [([Ho'|[Ho'|Ho']] & Es)|[(_ & _ & Hb & Ho' & Es)|(_ & Es)]].
      1-3: exfalso; unfold pads_fit in Hp; lia.
      { specialize (Ho Hb). fold start in Ho'. lia. }
      rewrite Es, path_assoc, path_to. right. exists q. eexists. split; [reflexivity|].
      cbn [map] in HF. rewrite map_app in HF. fair_split HF as G1 HF2. apply Forall_app in HF2 as (_ & HF3). fair_split HF3 as G3 HF4.
      apply IH'; [exact HF4|]. eauto.
Qed.

Lemma parse_path bld phdr l o : Forall fair l ->
  (path (parse_note_prog bld phdr) l o <->
   (l = [Img (SoughtTo (phdr_get "p_offset" phdr) None)] /\ o = Err (LElf SeekNoteHeader)) \/
   (exists q evs, l = map Img (SoughtTo (phdr_get "p_offset" phdr) (Some q) :: evs) /\
      notes_talk bld (phdr_get "p_offset" phdr) (phdr_get "p_filesz" phdr) 0 evs o)).
Proof.
  intros HF. unfold parse_note_prog. rewrite path_to. apply or_iff_compat_l.
  assert (Hf : phdr_get "p_filesz" phdr <= 0 + 12 * N.of_nat (S (N.to_nat (phdr_get "p_filesz" phdr / 12)))).
  { pose proof (N.div_mod (phdr_get "p_filesz" phdr) 12 ltac:(lia)). pose proof (N.mod_lt (phdr_get "p_filesz" phdr) 12 ltac:(lia)). lia. }
  split.
  - intros (q & r & -> & H). fair_split HF as G1 HF2. apply (note_path bld phdr _ 0 _ r o Hf HF2) in H as (evs & -> & K). exists q, evs. auto.
  - intros (q & evs & -> & K). exists q, (map Img evs). split; [reflexivity|]. fair_split HF as G1 HF2.
    apply (note_path bld phdr _ 0 _ _ o Hf HF2). eauto.
Qed.

(** ** The table *)
Lemma read_phdrs_path : forall n l o, Forall fair l ->
  (path (read_phdrs_prog n) l o <-> exists bs, Forall (fun b => lenN b = 56) bs /\
    ((length bs = n /\ l = map Img (map got_entry bs) /\ o = Ok bs) \/
     ((length bs < n)%nat /\ l = map Img (map got_entry bs ++ [ReadAll 56 None]) /\ o = Err (LElf ReadProgramHeader)))).
Proof.
  induction n as [|n IH]; intros l o HF; cbn [read_phdrs_prog].
  { rewrite path_done. split.
    - intros (-> & ->). exists []. auto.
    - intros ([|b bs] & _ & [(Hl & -> & ->)|(Hl & _)]); cbn in Hl; try lia. auto. }
  change (size Elf64_Phdr) with 56. rewrite path_all. split.
  - intros [(-> & ->)|(b & r & -> & H)].
    { exists []. split; [constructor|]. right. split; [cbn; lia|]. auto. }
    fair_split HF as G1 HF2. apply path_bind in H as [(l1 & l2 & bs & -> & H & H2)|[(e & H & ->)|(w & H & ->)]].
    + apply Forall_app in HF2 as (HF2 & _). apply IH in H as (bs' & Hbs & [(Hl & -> & E1)|(_ & _ & E1)]); [|discriminate|exact HF2].
      injection E1 as ->. apply path_done in H2 as (-> & ->). exists (b :: bs'). split; [now constructor|]. left.
      split; [cbn; lia|]. split; [|reflexivity]. cbn [map app]. now rewrite app_nil_r.
    + apply IH in H as (bs' & Hbs & [(_ & _ & E1)|(Hl & -> & E1)]); [discriminate| |exact HF2]. injection E1 as ->.
      exists (b :: bs'). split; [now constructor|]. right. split; [cbn; lia|]. auto.
    + apply IH in H as (bs' & Hbs & [(_ & _ & E1)|(_ & _ & E1)]); [discriminate..|exact HF2].
  - intros (bs & Hbs & K). destruct bs as [|b bs].
    { destruct K as [(Hl & _)|(_ & -> & ->)]; [discriminate|]. left. auto. }
    inversion Hbs as [|? ? Hb Hbs']; subst. right.
    destruct K as [(Hl & -> & ->)|(Hl & -> & ->)]; cbn [map app] in HF; fair_split HF as G1 HF2; exists b; eexists; (split; [reflexivity|]); apply path_bind.
    + left. exists (map Img (map got_entry bs)), [], bs. split; [now rewrite app_nil_r|]. split; [|now apply path_done].
      apply IH; [exact HF2|]. exists bs. split; [exact Hbs'|]. left. cbn in Hl. auto with arith.
    + right. left. exists (LElf ReadProgramHeader). split; [|reflexivity]. apply IH; [exact HF2|]. exists bs. split; [exact Hbs'|]. right. cbn in Hl.
      split; [lia|]. auto.
Qed.

(** One entry of the table. *)
Lemma entry_step bld off b rest kend cap l o : lenN b = 56 -> Forall fair l ->
  (path (load_phdrs_prog bld off (b :: rest) kend cap) l o <->
   (exists e, ph_acts bld off (ph_read b) l (Err e) /\ o = Err e) \/
   (exists w, ph_acts bld off (ph_read b) l (Panic w) /\ o = Panic w) \/
   (exists l1 l2 c1, l = l1 ++ l2 /\ ph_acts bld off (ph_read b) l1 (Ok c1) /\
      path (load_phdrs_prog bld off rest (if is_load (ph_read b) then N.max kend (end_of off (ph_read b)) else kend)
              (match c1 with Some x => x | None => cap end)) l2 o)).
Proof.
  intros Hb HF. cbn [load_phdrs_prog].
  assert (Hfz : phdr_get "p_filesz" b = ph_filesz (ph_of b)) by reflexivity.
  assert (Hof : phdr_get "p_offset" b = ph_offset (ph_of b)) by reflexivity.
  assert (Hpa : phdr_get "p_paddr" b = ph_paddr (ph_of b)) by reflexivity.
  assert (Hms : phdr_get "p_memsz" b = ph_memsz (ph_of b)) by reflexivity.
  assert (Hpl' : phdr_get "p_paddr" b < two64) by apply paddr_lt.
  assert (Hload : negb (phdr_get "p_type" b =? PT_LOAD) || (phdr_get "p_filesz" b =? 0) = negb (is_load (ph_of b))).
  { unfold is_load. rewrite negb_andb, negb_involutive. reflexivity. }
  rewrite Hload.
  assert (Hn : (phdr_get "p_type" b =? PT_NOTE) = is_note (ph_of b)) by reflexivity.
  rewrite Hn. clear Hload Hn.
  pose proof (parse_path bld b) as Hgp. rewrite Hof, Hfz in Hgp.
  rewrite Hpa in Hpl'. rewrite Hof, Hfz, Hpa, Hms. clear Hof Hfz Hpa Hms. rewrite (ph_of_read b Hb) in *. set (p := ph_read b) in *.
  destruct (is_load p) eqn:El; cbn [negb].
  2:{ destruct (is_note p) eqn:En.
      2:{ cbn [pbind]. split.
          - intros H. right. right. exists [], l, None. split; [reflexivity|]. split; [now apply ha_other|exact H].
          - intros [(e & K & _)|[(w & K & _)|(l1 & l2 & c1 & -> & K & H)]]; inversion K; subst; try congruence. exact H. }
      destruct off as [k|].
      { cbn [pbind]. split.
        - intros H. right. right. exists [], l, (Some PvhEntryIgnored). split; [reflexivity|]. split; [now apply ha_ignored with (k := k)|exact H].
        - intros [(e & K & _)|[(w & K & _)|(l1 & l2 & c1 & -> & K & H)]]; inversion K; subst; try congruence. exact H. }
      rewrite path_bind. split.
      - intros [(l1 & l2 & c & -> & H & H2)|[(e & H & ->)|(w & H & ->)]].
        + apply Forall_app in HF as (HF & _). apply Hgp in H as [(_ & E1)|(q & evs & -> & K)]; [discriminate| |exact HF].
          right. right. exists (map Img (SoughtTo (ph_offset p) (Some q) :: evs)), l2, (Some c). split; [reflexivity|]. split; [|exact H2].
          exact (ha_notes bld None p q evs (Ok c) El En eq_refl K).
        + left. exists e. split; [|reflexivity]. apply Hgp in H as [(-> & E1)|(q & evs & -> & K)]; [| |exact HF].
          * injection E1 as ->. now apply ha_no_notes.
          * exact (ha_notes bld None p q evs (Err e) El En eq_refl K).
        + right. left. exists w. split; [|reflexivity]. apply Hgp in H as [(_ & E1)|(q & evs & -> & K)]; [discriminate| |exact HF].
          exact (ha_notes bld None p q evs (Panic w) El En eq_refl K).
      - intros [(e & K & ->)|[(w & K & ->)|(l1 & l2 & c1 & -> & K & H)]].
        + right. left. exists e. split; [|reflexivity]. apply Hgp; [exact HF|]. inversion K as [ | | |q evs o' A1 A2 A3 A4 A5 A6| | | | | ]; subst; try congruence; auto.
          destruct o' as [c|e'|w]; try discriminate. injection A6 as ->. right. eauto.
        + right. right. exists w. split; [|reflexivity]. apply Hgp; [exact HF|]. inversion K as [ | | |q evs o' A1 A2 A3 A4 A5 A6| | | | | ]; subst; try congruence.
          destruct o' as [c|e'|w']; try discriminate. injection A6 as ->. right. eauto.
        + left. inversion K as [ | | |q evs o' A1 A2 A3 A4 A5 A6| | | | | ]; subst; try congruence.
          destruct o' as [c|e'|w']; try discriminate. injection A6 as <-. eexists _, l2, c. split; [reflexivity|]. split; [|exact H].
          apply Forall_app in HF as (HF & _). apply Hgp; [exact HF|]. right. exists q, evs. split; [reflexivity|exact A4]. }
  assert (Haddr : match off with
                  | Some k => ok_or (checked_add k (ph_paddr p)) (LElf InvalidProgramHeaderAddress)
                  | None => Ok (ph_paddr p)
                  end = if base_of off + ph_paddr p <? two64 then Ok (base_of off + ph_paddr p)
                        else Err (LElf InvalidProgramHeaderAddress)).
  { destruct off as [k|]; cbn [base_of].
    - unfold checked_add. destruct (k + ph_paddr p <? two64); reflexivity.
    - rewrite N.add_0_l, (proj2 (N.ltb_lt _ _)) by exact Hpl'. reflexivity. }
  rewrite Haddr. clear Haddr. rewrite path_to. destruct (N.ltb_spec (base_of off + ph_paddr p) two64) as [Hlt|Hge]; cbn [pbind].
  2:{ split.
      - intros [(-> & ->)|(q & r & -> & H)].
        + left. eexists. split; [now apply ha_no_start|reflexivity].
        + apply path_done in H as (-> & ->). left. eexists. split; [now apply ha_addr|reflexivity].
      - intros [(e & K & ->)|[(w & K & ->)|(l1 & l2 & c1 & -> & K & H)]];
          inversion K as [ | | | | |q A1 A2|q A1 A2|q A1 A2 A3|q A1 A2]; subst; try congruence;
          try (change (2 ^ 64) with two64 in *; exfalso; lia).
        + left. auto.
        + right. eexists _, []. split; [reflexivity|]. now apply path_done. }
  rewrite checked_end. split.
  - intros [(-> & ->)|(q & r & -> & H)].
    { left. eexists. split; [now apply ha_no_start|reflexivity]. }
    apply path_place in H as [(-> & ->)|(r2 & -> & H)].
    { left. eexists. split; [now apply ha_refused|reflexivity]. }
    destruct (N.ltb_spec (base_of off + ph_paddr p + ph_memsz p) two64) as [He|He].
    + cbn [pbind] in H. right. right. exists [Img (SoughtTo (ph_offset p) (Some q)); Placed (base_of off + ph_paddr p) (ph_filesz p) true], r2, None.
      split; [reflexivity|]. split; [now apply ha_placed|exact H].
    + apply path_done in H as (-> & ->). left. eexists. split; [now apply ha_end|reflexivity].
  - intros [(e & K & ->)|[(w & K & ->)|(l1 & l2 & c1 & -> & K & H)]];
      inversion K as [ | | | | |q A1 A2|q A1 A2|q A1 A2 A3|q A1 A2]; subst; try congruence;
      try (change (2 ^ 64) with two64 in *; exfalso; lia).
    + left. auto.
    + right. eexists _, _. split; [reflexivity|]. apply path_place. left. auto.
    + right. eexists _, _. split; [reflexivity|]. apply path_place. right. eexists. split; [reflexivity|].
      change (2 ^ 64) with two64 in A3. rewrite (proj2 (N.ltb_ge _ _) A3). now apply path_done.
    + right. eexists _, _. split; [reflexivity|]. apply path_place. right. eexists. split; [reflexivity|].
      change (2 ^ 64) with two64 in A2. rewrite (proj2 (N.ltb_lt _ _) A2). exact H.
Qed.

Lemma table_path bld off bs : Forall (fun b => lenN b = 56) bs -> forall kend cap l o, Forall fair l ->
  (path (load_phdrs_prog bld off bs kend cap) l o <->
   exists o', table_acts bld off (map ph_read bs) cap l o' /\
     o = match o' with Ok c => Ok (N.max kend (max_end off (map ph_read bs)), c) | Err e => Err e | Panic w => Panic w end).
Proof.
  induction 1 as [|b bs Hb _ IH]; intros kend cap l o HF.
  { cbn [load_phdrs_prog map]. rewrite path_done. unfold max_end. cbn. rewrite N.max_0_r. split.
    - intros (-> & ->). exists (Ok cap). split; [constructor|reflexivity].
    - intros (o' & K & ->). inversion K. auto. }
  rewrite entry_step by assumption. cbn [map]. set (p := ph_read b). set (ps := map ph_read bs) in *.
  assert (Hmax : N.max (if is_load p then N.max kend (end_of off p) else kend) (max_end off ps) = N.max kend (max_end off (p :: ps))).
  { unfold max_end, loaded. cbn [filter]. destruct (is_load p); [|reflexivity]. cbn [map fold_right]. lia. }
  split.
  - intros [(e & K & ->)|[(w & K & ->)|(l1 & l2 & c1 & -> & K & H)]].
    + exists (Err e). split; [now apply ta_err|reflexivity].
    + exists (Panic w). split; [now apply ta_panic|reflexivity].
    + apply Forall_app in HF as (_ & HF). apply IH in H as (o' & K2 & ->); [|exact HF]. exists o'. split; [now apply ta_cons with (c1 := c1)|].
      rewrite Hmax. reflexivity.
  - intros (o' & K & ->). inversion K as [|? ? ? ? e K1|? ? ? ? w K1|? ? ? l1 c1 l2 ? K1 K2]; subst.
    + left. eauto.
    + right. left. eauto.
    + right. right. exists l1, l2, c1. split; [reflexivity|]. split; [exact K1|]. apply Forall_app in HF as (_ & HF). apply IH; [exact HF|].
      exists o'. split; [exact K2|]. rewrite Hmax. reflexivity.
Qed.

(** ** The whole load *)
Definition elf_rest (bld : build) (off : option N) (load phoff phnum : N) : prog lerror load_result :=
  seek_to phoff (LElf SeekProgramHeader) ;;~
  phdrs <~ read_phdrs_prog (N.to_nat phnum) ;;
  res <~ load_phdrs_prog bld off phdrs 0 PvhEntryIgnored ;;
  Done (Ok (mkResult load (fst res) None (snd res))).
Definition elf_tail (bld : build) (off highmem : option N) (ehdr : bytes) : prog lerror load_result :=
  Done (validate_header ehdr) ;;~
  (match highmem with
   | Some addr => if ehdr_get "e_entry" ehdr <? addr then Done (Err (LElf InvalidEntryAddress)) else Done (Ok tt)
   | None => Done (Ok tt)
   end) ;;~
  load <~ Done (match off with
                | Some k => ok_or (checked_add k (ehdr_get "e_entry" ehdr)) (LElf ElfOverflow)
                | None => Ok (ehdr_get "e_entry" ehdr)
                end) ;;
  elf_rest bld off load (ehdr_get "e_phoff" ehdr) (ehdr_get "e_phnum" ehdr).
Lemma elf_tail_cases bld off highmem h : lenN h = 64 ->
  (exists e, elf_problem h off highmem e /\ elf_tail bld off highmem h = Done (Err (LElf e))) \/
  (elf_good h off highmem /\ elf_tail bld off highmem h = elf_rest bld off (base_of off + entry_of h) (phoff_of h) (phnum_of h)).
Proof.
  intros Hl. assert (Hle : 64 <= lenN h) by lia. unfold elf_tail.
  pose proof (validate_header_spec h Hle) as V. pose proof (ehdr_entry h Hle) as A1. pose proof (ehdr_phoff h Hle) as A2. pose proof (ehdr_phnum h Hle) as A3.
  rewrite (slice64 h Hl) in V, A1, A2, A3. rewrite A1, A2, A3. clear A1 A2 A3.
  destruct V as [(V & Hg)|(e & V & Hp)]; rewrite V; cbn [pbind].
  2:{ left. exists e. split; [now apply ep_header|reflexivity]. }
  assert (Hh : highmem_ok h highmem /\ match highmem with Some addr => if entry_of h <? addr then Done (Err (LElf InvalidEntryAddress)) else Done (Ok tt) | None => Done (Ok tt) end = Done (Ok tt) \/
    ~ highmem_ok h highmem /\ match highmem with Some addr => if entry_of h <? addr then Done (Err (LElf InvalidEntryAddress)) else Done (Ok tt) | None => Done (Ok tt) end = Done (Err (LElf InvalidEntryAddress))).
  { destruct highmem as [a|]; cbn [highmem_ok]; [|left; auto]. destruct (N.ltb_spec (entry_of h) a); [right|left]; (split; [lia|reflexivity]). }
  destruct Hh as [(Hh & Eh)|(Hh & Eh)]; rewrite Eh; cbn [pbind].
  2:{ left. eexists. split; [now apply ep_entry|reflexivity]. }
  assert (Haddr : match off with Some k => ok_or (checked_add k (entry_of h)) (LElf ElfOverflow) | None => Ok (entry_of h) end
    = if base_of off + entry_of h <? two64 then Ok (base_of off + entry_of h) else Err (LElf ElfOverflow)).
  { destruct off as [k|]; cbn [base_of].
    - unfold checked_add. destruct (k + entry_of h <? two64); reflexivity.
    - rewrite N.add_0_l, (proj2 (N.ltb_lt _ _)) by apply u64at_lt. reflexivity. }
  rewrite Haddr. clear Haddr. destruct (N.ltb_spec (base_of off + entry_of h) two64) as [Hlt|Hge].
  - right. split; [split; [exact Hl|split; [exact Hg|split; [exact Hh|exact Hlt]]]|reflexivity].
  - left. eexists. split; [now apply ep_overflow|reflexivity].
Qed.

Lemma elf_path bld off highmem l o : Forall fair l -> (path (elf_prog bld off highmem) l o <-> elf_acts bld off highmem l o).
Proof.
  intros HF. unfold elf_prog. change (size Elf64_Ehdr) with 64. rewrite path_to. split.
  - intros [(-> & ->)|(q & r & -> & H)]; [apply ea_no_start|]. fair_split HF as G1 HF2.
    apply path_all in H as [(-> & ->)|(h & r2 & -> & H)]; [apply ea_no_header|]. fair_split HF2 as Hl HF3.
    change (path (elf_tail bld off highmem h) r2 o) in H.
    destruct (elf_tail_cases bld off highmem h Hl) as [(e & P & Ee)|(G & Ee)]; rewrite Ee in H.
    { apply path_done in H as (-> & ->). now apply ea_bad. }
    unfold elf_rest in H. apply path_to in H as [(-> & ->)|(q2 & r3 & -> & H)]; [now apply ea_no_table|]. fair_split HF3 as G3 HF4.
    apply path_bind in H as [(l1 & l2 & bs & -> & H & H2)|[(e & H & ->)|(w & H & ->)]].
    + apply Forall_app in HF4 as (HF4 & HF5). apply read_phdrs_path in H as (bs' & Hbs & [(Lb & -> & E1)|(_ & _ & E1)]); [|discriminate|exact HF4].
      injection E1 as <-. apply path_bind in H2 as [(l3 & l4 & res & -> & H & H2)|[(e & H & ->)|(w & H & ->)]].
      * apply path_done in H2 as (-> & ->). rewrite app_nil_r in *. apply table_path in H as (o' & K & E1); [|exact Hbs|exact HF5].
        destruct o' as [c|e|w]; try discriminate. injection E1 as ->. cbn [fst snd]. rewrite N.max_0_l.
        exact (ea_table bld off highmem q h q2 bs l3 (Ok c) G ltac:(unfold lenN; lia) Hbs K).
      * apply table_path in H as (o' & K & E1); [|exact Hbs|exact HF5]. destruct o' as [c|e'|w]; try discriminate. injection E1 as ->.
        exact (ea_table bld off highmem q h q2 bs l2 (Err e') G ltac:(unfold lenN; lia) Hbs K).
      * apply table_path in H as (o' & K & E1); [|exact Hbs|exact HF5]. destruct o' as [c|e'|w']; try discriminate. injection E1 as ->.
        exact (ea_table bld off highmem q h q2 bs l2 (Panic w') G ltac:(unfold lenN; lia) Hbs K).
    + apply read_phdrs_path in H as (bs & Hbs & [(_ & _ & E1)|(Lb & -> & E1)]); [discriminate| |exact HF4]. injection E1 as ->.
      apply (ea_short_table bld off highmem q h q2 bs G); [unfold lenN; lia|exact Hbs].
    + apply read_phdrs_path in H as (bs & Hbs & [(_ & _ & E1)|(Lb & -> & E1)]); [discriminate..|exact HF4].
  - intros K.
    destruct K as [ |q|q h e Hl P|q h G|q h q2 bs G Lb Hbs|q h q2 bs l o G Lb Hbs K]; [left; auto|right; exists q; eexists; (split; [reflexivity|])..];
      apply path_all; [left; auto|right; exists h; eexists; (split; [reflexivity|])..];
      match goal with |- path _ ?r ?x => change (path (elf_tail bld off highmem h) r x) end;
      (assert (Hl' : lenN h = 64) by first [exact Hl|exact (proj1 G)]);
      (destruct (elf_tail_cases bld off highmem h Hl') as [(e' & P' & Ee)|(G' & Ee)]; rewrite Ee; [try (exfalso; exact (elf_problem_bad _ _ _ _ P' G))|]).
    + rewrite (elf_problem_det _ _ _ _ _ P P'). now apply path_done.
    + exfalso. exact (elf_problem_bad _ _ _ _ P G').
    + apply path_to. left. auto.
    + apply path_to. right. exists q2. eexists. split; [reflexivity|]. apply path_bind. right. left. eexists. split; [|reflexivity].
      cbn [map app] in HF. fair_split HF as G1 HF2. fair_split HF2 as G2 HF3. fair_split HF3 as G3 HF4.
      apply read_phdrs_path; [exact HF4|]. exists bs. split; [exact Hbs|]. right. split; [unfold lenN, bytes in *; lia|]. auto.
    + apply path_to. right. exists q2. eexists. split; [reflexivity|]. apply path_bind. left. exists (map Img (map got_entry bs)), l, bs.
      split; [reflexivity|]. cbn [map app] in HF. fair_split HF as G1 HF2. fair_split HF2 as G2 HF3. fair_split HF3 as G3 HF4.
      apply Forall_app in HF4 as (HF4 & HF5). split.
      { apply read_phdrs_path; [exact HF4|]. exists bs. split; [exact Hbs|]. left. split; [unfold lenN, bytes in *; lia|]. auto. }
      apply path_bind. destruct o as [c|e|w].
      * left. exists l, [], (max_end off (map ph_read bs), c). split; [now rewrite app_nil_r|]. split; [|now apply path_done].
        apply table_path; [exact Hbs|exact HF5|]. exists (Ok c). split; [exact K|]. now rewrite N.max_0_l.
      * right. left. exists e. split; [|reflexivity]. apply table_path; [exact Hbs|exact HF5|]. exists (Err e). auto.
      * right. right. exists w. split; [|reflexivity]. apply table_path; [exact Hbs|exact HF5|]. exists (Panic w). auto.
Qed.
