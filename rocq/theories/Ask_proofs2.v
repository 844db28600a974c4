(** What conversations lead the loaders and configurators to. *)
From Verif Require Import Base Base_proofs Io Mem SpecMem Mem_proofs Layout SpecFile File_proofs Text Cmdline SpecCmdline Cmdline_proofs
  Cmdline_proofs2 Cmdline_proofs3 Loader Elf SpecElf
  Align_proofs Elf_proofs Elf_proofs2 BzImage SpecBz Bz_proofs Pe SpecPe Pe_proofs Props_Pe Source SpecTalk Talk_proofs Props_Talk2
  BootParams Ask SpecAsk Ask_proofs.
Local Open Scope list_scope.
Local Open Scope ask_scope.

Ltac fair_head H := let F := fresh "F" in inversion H as [|? ? F ?]; subst; cbn [fair] in F.

Lemma dtb_path addr l o : path (dtb_prog addr) l o <-> dtb_acts addr l o.
Proof.
  unfold dtb_prog. change 0x200000 with (2 * 1024 * 1024). rewrite path_end. split.
  - intros [(-> & ->)|(n & r & -> & H)]; [apply da_no_end|].
    destruct (N.ltb_spec (2 * 1024 * 1024) n) as [Hb|Hb].
    { apply path_done in H as (-> & ->). now apply da_big. }
    apply path_to in H as [(-> & ->)|(q & r2 & -> & H)]; [now apply da_no_start|].
    apply path_place_last in H as [(-> & ->)|(-> & ->)]; [now apply da_refused|now apply da_placed].
  - intros [ |n Hb|n Hb|n q Hb|n q Hb]; [left; auto|right; exists n; eexists; (split; [reflexivity|])..].
    + rewrite (proj2 (N.ltb_lt _ _) Hb). now apply path_done.
    + rewrite (proj2 (N.ltb_ge _ _) Hb). apply path_to. left. auto.
    + rewrite (proj2 (N.ltb_ge _ _) Hb). apply path_to. right. exists q. eexists. split; [reflexivity|]. apply path_place_last. auto.
    + rewrite (proj2 (N.ltb_ge _ _) Hb). apply path_to. right. exists q. eexists. split; [reflexivity|]. apply path_place_last. auto.
Qed.

Lemma checked_end {E} (a n : N) (e : E) : ok_or (checked_add a n) e = if a + n <? two64 then Ok (a + n) else Err e.
Proof. unfold checked_add. destruct (a + n <? two64); reflexivity. Qed.

(** ** PE images *)
Definition pe_tail (a : arch) (off : option N) (kernel_size : N) (hdr : bytes) : prog lerror load_result :=
  if negb (magic_ok a hdr) then Done (Err (LPe InvalidImageMagicNumber))
  else if match off with
          | Some k => negb (k mod 0x200000 =? 0)
          | None => false
          end then Done (Err (LPe InvalidBaseAddrAlignment))
  else
    mem_offset <~ Done (ok_or (checked_add (match off with Some k => k | None => 0 end) (text_offset a hdr)) (LPe InvalidImage)) ;;
    seek_to 0 (LPe SeekImageHeader) ;;~
    place mem_offset kernel_size (LPe PeReadKernelImage) ;;~
    kernel_end <~ Done (ok_or (checked_add mem_offset kernel_size) MemoryOverflow) ;;
    Done (Ok (mkResult mem_offset kernel_end None PvhEntryIgnored)).
Definition pe_go (addr kernel_size : N) : prog lerror load_result :=
  seek_to 0 (LPe SeekImageHeader) ;;~
  place addr kernel_size (LPe PeReadKernelImage) ;;~
  kernel_end <~ Done (ok_or (checked_add addr kernel_size) MemoryOverflow) ;;
  Done (Ok (mkResult addr kernel_end None PvhEntryIgnored)).
Lemma pe_tail_cases a off n h : lenN h = 64 ->
  (exists e, pe_problem a h off e /\ pe_tail a off n h = Done (Err (LPe e))) \/
  (pe_good a h off /\ pe_tail a off n h = pe_go (pe_load_addr a h off) n).
Proof.
  intros Hl. assert (Hle : 64 <= lenN h) by lia. unfold pe_tail.
  assert (Em0 : magic_ok a h = magic_ok a (slice h 0 64)) by now rewrite slice64. rewrite Em0.
  assert (Et0 : text_offset a h = pe_text_offset a h) by now rewrite <- (text_offset_spec h Hle a), slice64. rewrite Et0.
  destruct (magic_ok a (slice h 0 64)) eqn:Em; cbn [negb].
  2:{ left. exists InvalidImageMagicNumber. split; [|reflexivity]. apply pp_magic; [exact Hle|]. rewrite <- magic_ok_spec by assumption. congruence. }
  apply magic_ok_spec in Em; [|assumption].
  fold (pe_base off).
  assert (Ha : (match off with Some k => negb (k mod 0x200000 =? 0) | None => false end = true /\ pe_base off mod (2 * 1024 * 1024) <> 0) \/
               (match off with Some k => negb (k mod 0x200000 =? 0) | None => false end = false /\ pe_base off mod (2 * 1024 * 1024) = 0)).
  { change (2 * 1024 * 1024) with 0x200000. destruct off as [k|]; cbn [pe_base]; [|right; auto].
    destruct (N.eqb_spec (k mod 0x200000) 0); cbn; [right|left]; auto. }
  destruct Ha as [[Ea Ha]|[Ea Ha]]; rewrite Ea.
  { left. exists InvalidBaseAddrAlignment. split; [now apply pp_align|reflexivity]. }
  rewrite (checked_end (pe_base off) (pe_text_offset a h)). fold (pe_load_addr a h off).
  destruct (N.ltb_spec (pe_load_addr a h off) two64) as [Hlt|Hge].
  2:{ left. exists InvalidImage. split; [now apply pp_over|reflexivity]. }
  right. split; [unfold pe_good; auto|]. reflexivity.
Qed.
Lemma pe_problem_bad a h off e : pe_problem a h off e -> pe_good a h off -> False.
Proof. intros P G. exact (pe_problem_not_good _ _ _ _ P G). Qed.

Lemma pe_path a off l o : Forall fair l -> (path (pe_prog a off) l o <-> pe_acts a off l o).
Proof.
  intros HF. unfold pe_prog. replace (size (image_header a)) with 64 by (destruct a; reflexivity). rewrite path_end. split.
  - intros [(-> & ->)|(n & r & -> & H)]; [apply pa_no_end|]. fair_head HF.
    apply path_to in H as [(-> & ->)|(q & r2 & -> & H)]; [now apply pa_no_start|]. fair_head H0.
    apply path_all in H as [(-> & ->)|(h & r3 & -> & H)]; [now apply pa_no_header|]. fair_head H1.
    fold (pe_tail a off n h) in H. destruct (pe_tail_cases a off n h F1) as [(e & P & Ee)|(G & Ee)]; rewrite Ee in H.
    { apply path_done in H as (-> & ->). now apply pa_bad. }
    unfold pe_go in H. apply path_to in H as [(-> & ->)|(q2 & r4 & -> & H)]; [now apply pa_no_rewind|].
    apply path_place in H as [(-> & ->)|(r5 & -> & H)]; [now apply pa_refused|].
    rewrite checked_end in H. destruct (N.ltb_spec (pe_load_addr a h off + n) two64) as [Hb|Hb]; apply path_done in H as (-> & ->).
    + now apply pa_placed.
    + now apply pa_over.
  - intros K. destruct K as [ |n|n q|n q h e Hl P|n q h Hl G|n q h q2 Hl G|n q h q2 Hl G Hb|n q h q2 Hl G Hb];
      [left; auto|right; exists n; eexists; (split; [reflexivity|])..]; apply path_to; [left; auto|right; exists q; eexists; (split; [reflexivity|])..];
      apply path_all; [left; auto|right; exists h; eexists; (split; [reflexivity|])..]; fold (pe_tail a off n h);
      (destruct (pe_tail_cases a off n h Hl) as [(e' & P' & Ee)|(G' & Ee)]; rewrite Ee; [try (exfalso; exact (pe_problem_bad _ _ _ _ P' G))|]).
    + rewrite (pe_problem_det _ _ _ _ _ P P'). now apply path_done.
    + exfalso. exact (pe_problem_bad _ _ _ _ P G').
    + apply path_to. auto.
    + apply path_to. right. exists q2. eexists. split; [reflexivity|]. apply path_place. auto.
    + apply path_to. right. exists q2. eexists. split; [reflexivity|]. apply path_place. right. eexists. split; [reflexivity|].
      rewrite checked_end. rewrite (proj2 (N.ltb_ge _ _)) by exact Hb. now apply path_done.
    + apply path_to. right. exists q2. eexists. split; [reflexivity|]. apply path_place. right. eexists. split; [reflexivity|].
      rewrite checked_end. rewrite (proj2 (N.ltb_lt _ _)) by exact Hb. now apply path_done.
Qed.

(** ** bzImages *)
Definition bz_tail (off highmem : option N) (kernel_size0 : N) (got : bytes) : prog lerror load_result :=
  let boot_header := patch (default_of setup_header) 0 got in
  if negb (hdr_get "header" boot_header =? 0x53726448) then Done (Err (LBz InvalidBzImage))
  else if (hdr_get "version" boot_header <? 0x0200)
          || (N.land (hdr_get "loadflags" boot_header) 1 =? 0) then Done (Err (LBz InvalidBzImage))
  else
    let setup_sects := hdr_get "setup_sects" boot_header in
    let setup_size0 := if setup_sects =? 0 then 4 else setup_sects in
    setup_size <~ Done (ok_or (match checked_add setup_size0 1 with
                               | Some x => checked_mul x 512
                               | None => None
                               end) (LBz BzOverflow)) ;;
    kernel_size <~ Done (ok_or (checked_sub kernel_size0 setup_size) (LBz BzUnderflow)) ;;
    if match highmem with
       | Some h => hdr_get "code32_start" boot_header <? h
       | None => false
       end then Done (Err InvalidKernelStartAddress)
    else
      let mem_offset := match off with
                        | Some start => start
                        | None => hdr_get "code32_start" boot_header
                        end in
      let boot_header' := set setup_header [Fld "code32_start"] mem_offset boot_header in
      seek_to setup_size (LBz SeekBzImageCompressedKernel) ;;~
      place mem_offset kernel_size (LBz ReadBzImageCompressedKernel) ;;~
      kernel_end <~ Done (ok_or (checked_add mem_offset kernel_size) MemoryOverflow) ;;
      Done (Ok (mkResult mem_offset kernel_end (Some boot_header') PvhEntryIgnored)).
Definition bz_go (setup addr kernel_size : N) (hdr : bytes) : prog lerror load_result :=
  seek_to setup (LBz SeekBzImageCompressedKernel) ;;~
  place addr kernel_size (LBz ReadBzImageCompressedKernel) ;;~
  kernel_end <~ Done (ok_or (checked_add addr kernel_size) MemoryOverflow) ;;
  Done (Ok (mkResult addr kernel_end (Some hdr) PvhEntryIgnored)).
Lemma bz_tail_cases off highmem n bs : lenN bs <= 123 ->
  let g := as_file bs in
  (exists e, bz_problem n bs highmem e /\ bz_tail off highmem n bs = Done (Err e)) \/
  (bz_good n bs highmem /\ bz_tail off highmem n bs =
     bz_go (bz_setup_size g) (bz_load_addr g off) (n - bz_setup_size g) (with_code32 (filled bs) (bz_load_addr g off))).
Proof.
  intros Hk. cbv zeta. unfold bz_tail. cbv zeta.
  rewrite (patch_filled bs Hk), <- (as_file_got bs Hk).
  rewrite hdr_header, hdr_version, hdr_loadflags, hdr_setup_sects, hdr_code32, hdr_set_code32, (as_file_got bs Hk), as_file_seen.
  set (g := as_file bs) in *.
  destruct (N.eqb_spec (bz_magic g) 0x53726448) as [Em|Em]; cbn [negb].
  2:{ left. eexists. split; [apply bp_header|reflexivity]. intros (G & _). contradiction. }
  destruct (N.ltb_spec (bz_version g) 0x200) as [Ev|Ev]; cbn [orb].
  { left. eexists. split; [apply bp_header|reflexivity]. fold g. intros (_ & G & _). lia. }
  rewrite land1.
  destruct (N.eqb_spec (bz_loadflags g mod 2) 0) as [Ef|Ef].
  { left. eexists. split; [apply bp_header|reflexivity]. fold g. intros (_ & _ & G). lia. }
  assert (Hgood : bz_header_good g).
  { unfold bz_header_good. split; [assumption|]. split; [assumption|]. destruct (mod2_cases (bz_loadflags g)); [contradiction|assumption]. }
  assert (Hsb : bz_setup_sects g < 256) by apply byte_at_lt.
  set (ss := if bz_setup_sects g =? 0 then 4 else bz_setup_sects g) in *.
  assert (Hs : 1 <= ss < 256) by (unfold ss; destruct (N.eqb_spec (bz_setup_sects g) 0); lia).
  rewrite (checked_add_lt ss 1) by (unfold two64; lia). unfold checked_mul.
  rewrite (proj2 (N.ltb_lt ((ss + 1) * 512) _)) by (unfold two64; lia).
  cbn [ok_or pbind].
  assert (Hss : (ss + 1) * 512 = bz_setup_size g) by (unfold bz_setup_size; fold ss; lia).
  rewrite Hss. unfold checked_sub.
  destruct (N.leb_spec (bz_setup_size g) n) as [Hle|Hgt]; cbn [ok_or pbind].
  2:{ left. eexists. split; [now apply bp_small|reflexivity]. }
  assert (Hh : (match highmem with Some h => bz_code32_start g <? h | None => false end = false /\ bz_highmem_ok g highmem) \/
               (match highmem with Some h => bz_code32_start g <? h | None => false end = true /\ ~ bz_highmem_ok g highmem)).
  { destruct highmem as [h|]; cbn; [|auto]. destruct (N.ltb_spec (bz_code32_start g) h); [right|left]; (split; [reflexivity|lia]). }
  destruct Hh as [[Eh Hh]|[Eh Hh]]; rewrite Eh.
  2:{ left. eexists. split; [now apply bp_start|reflexivity]. }
  right. split; [split; [exact Hgood|split; assumption]|]. reflexivity.
Qed.

Lemma bz_path off highmem l o : Forall fair l -> (path (bz_prog off highmem) l o <-> bz_acts off highmem l o).
Proof.
  intros HF. unfold bz_prog. change (size setup_header) with 123. change 0x1F1 with 0x1f1. rewrite path_end. split.
  - intros [(-> & ->)|(n & r & -> & H)]; [apply ba_no_end|]. fair_head HF.
    apply path_to in H as [(-> & ->)|(q & r2 & -> & H)]; [now apply ba_no_start|]. fair_head H0.
    apply path_some in H as [(-> & ->)|(bs & r3 & -> & H)]; [now apply ba_no_header|]. fair_head H1.
    fold (bz_tail off highmem n bs) in H. destruct (bz_tail_cases off highmem n bs F1) as [(e & P & Ee)|(G & Ee)]; rewrite Ee in H.
    { apply path_done in H as (-> & ->). now apply ba_bad. }
    unfold bz_go in H. apply path_to in H as [(-> & ->)|(q2 & r4 & -> & H)]; [now apply ba_no_kernel|].
    apply path_place in H as [(-> & ->)|(r5 & -> & H)]; [now apply ba_refused|].
    rewrite checked_end in H. destruct (N.ltb_spec (bz_load_addr (as_file bs) off + (n - bz_setup_size (as_file bs))) two64) as [Hb|Hb]; apply path_done in H as (-> & ->).
    + now apply ba_placed.
    + now apply ba_over.
  - intros K. destruct K as [ |n|n q|n q bs e Hl P|n q bs Hl G|n q bs q2 Hl G|n q bs q2 Hl G Hb|n q bs q2 Hl G Hb];
      [left; auto|right; exists n; eexists; (split; [reflexivity|])..]; apply path_to; [left; auto|right; exists q; eexists; (split; [reflexivity|])..];
      apply path_some; [left; auto|right; exists bs; eexists; (split; [reflexivity|])..]; fold (bz_tail off highmem n bs);
      (destruct (bz_tail_cases off highmem n bs Hl) as [(e' & P' & Ee)|(G' & Ee)]; rewrite Ee; [try (exfalso; exact (bz_problem_bad _ _ _ _ P' G))|]).
    + rewrite (bz_problem_det _ _ _ _ _ P P'). now apply path_done.
    + exfalso. exact (bz_problem_bad _ _ _ _ P G').
    + apply path_to. auto.
    + apply path_to. right. exists q2. eexists. split; [reflexivity|]. apply path_place. auto.
    + apply path_to. right. exists q2. eexists. split; [reflexivity|]. apply path_place. right. eexists. split; [reflexivity|].
      rewrite checked_end. rewrite (proj2 (N.ltb_ge _ _)) by exact Hb. now apply path_done.
    + apply path_to. right. exists q2. eexists. split; [reflexivity|]. apply path_place. right. eexists. split; [reflexivity|].
      rewrite checked_end. rewrite (proj2 (N.ltb_lt _ _)) by exact Hb. now apply path_done.
Qed.

(** ** Boot parameters *)
Lemma block_path bs a e1 e2 l o : path (fits a (lenN bs) e1 ;;~ write bs a e2) l o <-> block_acts bs a e1 e2 l o.
Proof.
  rewrite path_fits. split.
  - intros [(-> & ->)|(r & -> & H)]; [apply bl_past|]. apply path_write_last in H as [(-> & ->)|(-> & ->)]; constructor.
  - intros [ | | ]; [left; auto|right|right]; eexists; (split; [reflexivity|]); apply path_write_last; auto.
Qed.
Lemma block_then {B} bs a e1 e2 (f : prog berror B) l o :
  path (fits a (lenN bs) e1 ;;~ write bs a e2 ;;~ f) l o <->
  (exists e, block_acts bs a e1 e2 l (Err e) /\ o = Err e) \/
  (exists l1 l2, l = l1 ++ l2 /\ block_acts bs a e1 e2 l1 (Ok tt) /\ path f l2 o).
Proof.
  rewrite path_fits. split.
  - intros [(-> & ->)|(r & -> & H)]; [left; exists e1; split; [constructor|reflexivity]|].
    apply path_write in H as [(-> & ->)|(r2 & -> & H)]; [left; exists e2; split; [constructor|reflexivity]|].
    right. exists [Fits a (lenN bs) true; Wrote bs a true], r2. split; [reflexivity|]. split; [constructor|exact H].
  - intros [(e & H & ->)|(l1 & l2 & -> & H & P)].
    + inversion H; subst; [left; auto|right; eexists; split; [reflexivity|]; apply path_write; auto].
    + inversion H; subst. right. eexists. split; [reflexivity|]. apply path_write. right. eexists. split; [reflexivity|exact P].
Qed.
Definition modules_prog (p : boot_info) : prog berror unit :=
  match modules p with
  | None => Done (Ok tt)
  | Some mods =>
      modules_addr <~ Done (ok_or (modules_start p) (BPvh ModulesAddressMissing)) ;;
      write mods modules_addr (BPvh ModulesSetup)
  end.
Lemma modules_path p l o : path (modules_prog p) l o <-> modules_acts p l o.
Proof.
  unfold modules_prog. destruct (modules p) as [t|] eqn:Et.
  2:{ rewrite path_done. split; [intros (-> & ->); now apply ma_none|]. intros H. inversion H; subst; [auto|congruence..]. }
  destruct (modules_start p) as [a|] eqn:Ea; cbn [ok_or pbind].
  2:{ rewrite path_done. split; [intros (-> & ->); now apply ma_no_addr with (t := t)|]. intros H. inversion H; subst; [congruence|auto|congruence..]. }
  rewrite path_write_last. split.
  - intros [(-> & ->)|(-> & ->)]; [now apply ma_refused|now apply ma_written].
  - intros H. inversion H; subst; try congruence.
    + left. split; congruence.
    + right. split; congruence.
Qed.
Lemma pvh_path p l o : path (pvh_prog p) l o <-> pvh_acts p l o.
Proof.
  unfold pvh_prog. fold (modules_prog p). destruct (sections p) as [t|] eqn:Et; cbn [ok_or pbind].
  2:{ rewrite path_done. split; [intros (-> & ->); now apply va_none|]. intros H. inversion H; subst; [auto|congruence..]. }
  destruct (sections_start p) as [a|] eqn:Ea; cbn [ok_or pbind].
  2:{ rewrite path_done. split; [intros (-> & ->); now apply va_no_addr with (t := t)|]. intros H. inversion H; subst; [congruence|auto|congruence..]. }
  rewrite block_then. split.
  - intros [(e & H & ->)|(l1 & l2 & -> & H & P)]; [exact (va_table p t a l e Et Ea H)|].
    apply block_then in P as [(e & P & ->)|(l3 & l4 & -> & P & Q)]; [exact (va_start p t a l1 l2 e Et Ea H P)|].
    apply modules_path in Q. exact (va_rest p t a l1 l3 l4 o Et Ea H P Q).
  - intros K. inversion K as [E0|t0 E0 E1|t0 a0 l0 e0 E0 E1 H|t0 a0 l0 l2 e0 E0 E1 H P|t0 a0 l0 l2 l3 o0 E0 E1 H P Q]; subst; try congruence;
      rewrite Et in E0; injection E0 as <-; rewrite Ea in E1; injection E1 as <-.
    + left. eauto.
    + right. exists l0, l2. split; [reflexivity|]. split; [exact H|]. apply block_then. left. eauto.
    + right. exists l0, (l2 ++ l3). split; [reflexivity|]. split; [exact H|]. apply block_then. right. exists l2, l3. split; [reflexivity|].
      split; [exact P|]. now apply modules_path.
Qed.

(** ** The command line *)
Lemma cmdline_path bld addr c l o : path (cmdline_prog bld addr c) l o <-> cmdline_acts addr c l o.
Proof.
  unfold cmdline_prog. destruct (as_cstring c) as [s|e|w] eqn:Es.
  2:{ rewrite path_done. split; [intros (-> & ->); now apply ca_invalid with (e := e)|]. intros K. inversion K; subst; try congruence; auto. }
  2:{ exfalso. destruct (as_cstring_errors c) as (_ & _ & [H3|[H3|[b H3]]]); congruence. }
  cbv zeta. unfold bytes_with_nul. rewrite lenN_app. change (lenN [x00]) with 1.
  unfold usub. rewrite (proj2 (N.leb_le 1 (lenN s + 1))) by lia. rewrite N.add_sub. cbn [pbind]. rewrite checked_end.
  destruct (N.ltb_spec (addr + lenN s) two64) as [Hlt|Hge]; cbn [pbind].
  2:{ rewrite path_done. split; [intros (-> & ->); now apply ca_wraps with (s := s)|].
      intros K. inversion K as [e' E1|s' E1 H1|s' x E1 H1 H2|s' x E1 H1 H2|s' x E1 H1 H2]; subst; try congruence; rewrite Es in E1; injection E1 as <-; auto;
        change (2 ^ 64) with two64 in *; lia. }
  rewrite path_last. split.
  - intros (x & r & -> & H). destruct (N.ltb_spec x (addr + lenN s)) as [Hx|Hx].
    + apply path_done in H as (-> & ->). now apply ca_past with (s := s).
    + apply path_write_last in H as [(-> & ->)|(-> & ->)]; [now apply ca_refused|now apply ca_written].
  - intros K. inversion K as [e' E1|s' E1 H1|s' x E1 H1 H2|s' x E1 H1 H2|s' x E1 H1 H2]; subst; try congruence; rewrite Es in E1; injection E1 as <-;
      try (change (2 ^ 64) with two64 in *; lia); exists x; eexists; (split; [reflexivity|]).
    + rewrite (proj2 (N.ltb_lt _ _) H2). now apply path_done.
    + rewrite (proj2 (N.ltb_ge _ _) H2). apply path_write_last. auto.
    + rewrite (proj2 (N.ltb_ge _ _) H2). apply path_write_last. auto.
Qed.
