(** * Pe_proofs: the PE image loader and load_dtb. *)
From Verif Require Import Base Base_proofs Io Mem SpecMem Mem_proofs Layout Loader Pe SpecFile SpecBz SpecPe File_proofs Elf_proofs Elf_proofs2 Bz_proofs.
Open Scope loader_scope.

Section Fields.
Context (f : bytes) (Hlen : 64 <= lenN f).
Lemma img_magic_arm : img_get Aarch64 "magic" (slice f 0 64) = u32at f 0x38.
Proof.
  unfold img_get. rewrite (get_slice _ _ 56 U32) by (reflexivity || (cbn; lia) || lia).
  apply le_dec_slice4.
Qed.
Lemma img_magic2_riscv : img_get Riscv64 "magic2" (slice f 0 64) = u32at f 0x38.
Proof.
  unfold img_get. rewrite (get_slice _ _ 56 U32) by (reflexivity || (cbn; lia) || lia).
  apply le_dec_slice4.
Qed.
Lemma img_text a : img_get a "text_offset" (slice f 0 64) = u64at f 8.
Proof.
  unfold img_get. destruct a; (rewrite (get_slice _ _ 8 U64) by (reflexivity || (cbn; lia) || lia); apply le_dec_slice8).
Qed.
Lemma img_size_arm : img_get Aarch64 "image_size" (slice f 0 64) = u64at f 16.
Proof.
  unfold img_get. rewrite (get_slice _ _ 16 U64) by (reflexivity || (cbn; lia) || lia).
  apply le_dec_slice8.
Qed.
Lemma magic_ok_spec a : magic_ok a (slice f 0 64) = true <-> pe_magic_good a f.
Proof. unfold magic_ok, pe_magic_good. destruct a; rewrite ?img_magic_arm, ?img_magic2_riscv; apply N.eqb_eq. Qed.
Lemma text_offset_spec a : text_offset a (slice f 0 64) = pe_text_offset a f.
Proof. unfold text_offset, pe_text_offset. destruct a; rewrite ?img_size_arm, ?img_text; reflexivity. Qed.
End Fields.

Lemma pe_load_spec a be off highmem r m r' m' o :
  wf_reader r -> wf_mem m = true -> pe_load a be off highmem r m = (r', m', o) ->
  let f := rd_data r in
  rd_same_env r r' /\
  ((exists e, pe_problem a f off e /\ o = Err (LPe e) /\ m' = m) \/
   (io_trouble be r /\ exists e, o = Err (LPe e) /\ (m' = m \/ pe_good a f off /\ same_outside m m' (in_range (pe_load_addr a f off) (lenN f)))) \/
   (pe_good a f off /\ ~ range_backed m (pe_load_addr a f off) (lenN f) /\ o = Err (LPe PeReadKernelImage) /\
    same_outside m m' (in_range (pe_load_addr a f off) (lenN f))) \/
   (pe_good a f off /\ range_backed m (pe_load_addr a f off) (lenN f) /\
    mem_is_overlay m m' [(pe_load_addr a f off, f)] /\
    o = Ok (mkResult (pe_load_addr a f off) (pe_load_addr a f off + lenN f) None PvhEntryIgnored))).
Proof.
  intros (Hl63 & Hlm & Hm64) Hw H. cbv zeta. unfold pe_load in H. set (f := rd_data r) in *.
  assert (Hearly : forall rr e, rd_same_env r rr -> io_trouble be r -> (rr, m, @Err lerror load_result (LPe e)) = (r', m', o) ->
    rd_same_env r r' /\ (io_trouble be r /\ exists e, o = Err (LPe e) /\ (m' = m \/ pe_good a f off /\ same_outside m m' (in_range (pe_load_addr a f off) (lenN f))))).
  { intros rr e He Hf E. inversion E; subst rr m' o. split; [exact He|]. split; [exact Hf|]. eauto. }
  assert (Hprob : forall rr e, rd_same_env r rr -> pe_problem a f off e -> (rr, m, @Err lerror load_result (LPe e)) = (r', m', o) ->
    rd_same_env r r' /\ exists e, pe_problem a f off e /\ o = Err (LPe e) /\ m' = m).
  { intros rr e He Hf E. inversion E; subst rr m' o. split; [exact He|]. eauto. }
  rewrite lbind_lio in H.
  destruct (seek_end_cases r) as [(r1 & E1 & Henv1 & Hf)|E1]; rewrite E1 in H.
  { destruct (Hearly _ _ Henv1 (seek_io be _ Hf) H). auto. }
  set (r1 := rd_step r (rd_len r)) in *. assert (Henv1 : rd_same_env r r1) by apply rd_same_env_step.
  rewrite lbind_lio in H.
  destruct (seek_start_cases r1 0) as [(r2 & E2 & Henv2 & Hwhy)|[E2 _]]; rewrite E2 in H.
  { destruct Hwhy as [Hx|Hx]; [lia|]. destruct (Hearly _ _ (rd_same_env_trans _ _ _ Henv1 Henv2) (seek_io be _ (env_seek _ _ Henv1 Hx)) H). auto. }
  set (r2 := rd_step r1 0) in *. assert (Henv2 : rd_same_env r r2) by exact (rd_same_env_trans _ _ _ Henv1 (rd_same_env_step _ _)).
  rewrite lbind_lio in H. assert (Esz : size (image_header a) = 64) by (destruct a; reflexivity). rewrite Esz in H.
  destruct (read_exact_cases r2 64) as [(r3 & E3 & Henv3 & Hwhy)|[E3 Hlen]]; rewrite E3 in H.
  { change (rd_data r2) with f in Hwhy. change (rd_pos r2) with 0 in Hwhy. destruct Hwhy as [Hx|Hx].
    - destruct (Hprob _ _ (rd_same_env_trans _ _ _ Henv2 Henv3) (pp_short a f off ltac:(lia)) H). auto.
    - destruct (Hearly _ _ (rd_same_env_trans _ _ _ Henv2 Henv3) (rfault_io be _ (env_rfault _ _ Henv2 Hx)) H). auto. }
  change (rd_data r2) with f in *. change (rd_pos r2) with 0 in *. change (0 + 64) with 64 in *.
  set (r3 := rd_step r2 64) in *. assert (Henv3 : rd_same_env r r3) by exact (rd_same_env_trans _ _ _ Henv2 (rd_same_env_step _ _)).
  destruct (magic_ok a (slice f 0 64)) eqn:Em; cbn [negb] in H.
  2:{ assert (Hn : ~ pe_magic_good a f) by (rewrite <- magic_ok_spec by assumption; congruence).
      destruct (Hprob _ _ Henv3 (pp_magic _ _ _ Hlen Hn) H). auto. }
  apply magic_ok_spec in Em; [|assumption].
  rewrite (text_offset_spec f Hlen a) in H. fold (pe_base off) in H.
  assert (Ha : (match off with Some k => negb (k mod 0x200000 =? 0) | None => false end = true /\ pe_base off mod (2 * 1024 * 1024) <> 0) \/
               (match off with Some k => negb (k mod 0x200000 =? 0) | None => false end = false /\ pe_base off mod (2 * 1024 * 1024) = 0)).
  { change (2 * 1024 * 1024) with 0x200000. destruct off as [k|]; cbn [pe_base]; [|right; auto].
    destruct (N.eqb_spec (k mod 0x200000) 0); cbn; [right|left]; auto. }
  destruct Ha as [[Ea Ha]|[Ea Ha]]; rewrite Ea in H.
  { destruct (Hprob _ _ Henv3 (pp_align _ _ _ Hlen Em Ha) H). auto. }
  unfold checked_add in H at 1. fold (pe_load_addr a f off) in H.
  destruct (N.ltb_spec (pe_load_addr a f off) two64) as [Hlt|Hge]; cbn [ok_or] in H.
  2:{ rewrite lbind_err in H. destruct (Hprob _ _ Henv3 (pp_over _ _ _ Hlen Em Ha Hge) H). auto. }
  rewrite lbind_ok in H. assert (Hgood : pe_good a f off) by (unfold pe_good; auto).
  set (p := pe_load_addr a f off) in *.
  rewrite lbind_lio in H.
  destruct (seek_start_cases r3 0) as [(r4 & E4 & Henv4 & Hwhy)|[E4 _]]; rewrite E4 in H.
  { destruct Hwhy as [Hx|Hx]; [lia|]. destruct (Hearly _ _ (rd_same_env_trans _ _ _ Henv3 Henv4) (seek_io be _ (env_seek _ _ Henv3 Hx)) H). auto. }
  set (r4 := rd_step r3 0) in *. assert (Henv4 : rd_same_env r r4) by exact (rd_same_env_trans _ _ _ Henv3 (rd_same_env_step _ _)).
  unfold lbind at 1 in H. unfold lcopy in H. unfold rd_len in H. fold f in H.
  destruct (read_exact_volatile_from be r4 m p (lenN f)) as [[r5 m5] o5] eqn:Ec.
  assert (Ed4 : rd_data r4 = f) by reflexivity.
  apply copy_any in Ec; [|exact Hw|rewrite Ed4; change (rd_pos r4) with 0; lia].
  destruct Ec as (Henv5 & Hfr & Hpost). rewrite Ed4 in Hpost. change (rd_pos r4) with 0 in Hpost. rewrite slice_full in Hpost.
  pose proof (rd_same_env_trans _ _ _ Henv4 Henv5) as Henv5'.
  assert (Hdr : dest_ok be m p (lenN f) <-> range_backed m p (lenN f)).
  { split; [intros [? _]; assumption|]. intros; split; [assumption|lia]. }
  destruct Hpost as [(-> & Hd & Hput)|(-> & Hwhy)].
  - apply Hdr in Hd. rewrite checked_add_lt in H by (apply (range_backed_bound m); [exact Hw|lia|exact Hd]).
    cbn [ok_or] in H. rewrite lbind_ok in H. unfold lret in H. inversion H; subst r5 m5 o.
    split; [exact Henv5'|]. right; right; right. split; [exact Hgood|]. split; [exact Hd|]. split; [|reflexivity].
    split; [apply Hfr|]. intros x. rewrite Hput. reflexivity.
  - inversion H; subst r5 m5 o. split; [exact Henv5'|]. destruct Hwhy as [Ht|Hd].
    + right; left. split; [exact (env_trouble _ _ _ Henv4 (rtrouble_io _ _ Ht))|]. eexists. split; [reflexivity|]. right. auto.
    + right; right; left. rewrite Hdr in Hd. auto.
Qed.

Lemma load_dtb_spec be addr r m r' m' o :
  wf_reader r -> wf_mem m = true -> load_dtb be addr r m = (r', m', o) ->
  let f := rd_data r in
  rd_same_env r r' /\
  ((2 * 1024 * 1024 < lenN f /\ o = Err (LPe DtbTooBig) /\ m' = m) \/
   (io_trouble be r /\ exists e, o = Err (LPe e) /\ (m' = m \/ lenN f <= 2 * 1024 * 1024 /\ same_outside m m' (in_range addr (lenN f)))) \/
   (lenN f <= 2 * 1024 * 1024 /\ ~ dest_ok be m addr (lenN f) /\ o = Err (LPe ReadDtbImage) /\ same_outside m m' (in_range addr (lenN f))) \/
   (lenN f <= 2 * 1024 * 1024 /\ dest_ok be m addr (lenN f) /\ mem_is_overlay m m' [(addr, f)] /\ o = Ok tt)).
Proof.
  intros (Hl63 & Hlm & Hm64) Hw H. cbv zeta. unfold load_dtb in H. set (f := rd_data r) in *.
  assert (Hearly : forall rr e, rd_same_env r rr -> io_trouble be r -> (rr, m, @Err lerror unit (LPe e)) = (r', m', o) ->
    rd_same_env r r' /\ (io_trouble be r /\ exists e, o = Err (LPe e) /\ (m' = m \/ lenN f <= 2 * 1024 * 1024 /\ same_outside m m' (in_range addr (lenN f))))).
  { intros rr e He Hf E. inversion E; subst rr m' o. split; [exact He|]. split; [exact Hf|]. eauto. }
  rewrite lbind_lio in H.
  destruct (seek_end_cases r) as [(r1 & E1 & Henv1 & Hf)|E1]; rewrite E1 in H.
  { destruct (Hearly _ _ Henv1 (seek_io be _ Hf) H). auto. }
  set (r1 := rd_step r (rd_len r)) in *. assert (Henv1 : rd_same_env r r1) by apply rd_same_env_step.
  unfold rd_len in H. fold f in H. change 0x200000 with (2 * 1024 * 1024) in H.
  destruct (N.ltb_spec (2 * 1024 * 1024) (lenN f)) as [Hbig|Hsm].
  { inversion H; subst r' m' o. split; [exact Henv1|]. left. auto. }
  rewrite lbind_lio in H.
  destruct (seek_start_cases r1 0) as [(r2 & E2 & Henv2 & Hwhy)|[E2 _]]; rewrite E2 in H.
  { destruct Hwhy as [Hx|Hx]; [lia|]. destruct (Hearly _ _ (rd_same_env_trans _ _ _ Henv1 Henv2) (seek_io be _ (env_seek _ _ Henv1 Hx)) H). auto. }
  set (r2 := rd_step r1 0) in *. assert (Henv2 : rd_same_env r r2) by exact (rd_same_env_trans _ _ _ Henv1 (rd_same_env_step _ _)).
  unfold lcopy in H. destruct (read_exact_volatile_from be r2 m addr (lenN f)) as [[r5 m5] o5] eqn:Ec.
  assert (Ed2 : rd_data r2 = f) by reflexivity.
  apply copy_any in Ec; [|exact Hw|rewrite Ed2; change (rd_pos r2) with 0; lia].
  destruct Ec as (Henv5 & Hfr & Hpost). rewrite Ed2 in Hpost. change (rd_pos r2) with 0 in Hpost. rewrite slice_full in Hpost.
  pose proof (rd_same_env_trans _ _ _ Henv2 Henv5) as Henv5'.
  destruct Hpost as [(-> & Hd & Hput)|(-> & Hwhy)]; inversion H; subst r5 m5 o; (split; [exact Henv5'|]).
  - right; right; right. split; [exact Hsm|]. split; [exact Hd|]. split; [|reflexivity]. split; [apply Hfr|]. intros x. rewrite Hput. reflexivity.
  - destruct Hwhy as [Ht|Hd].
    + right; left. split; [exact (env_trouble _ _ _ Henv2 (rtrouble_io _ _ Ht))|]. eexists. split; [reflexivity|]. right. auto.
    + right; right; left. auto.
Qed.
